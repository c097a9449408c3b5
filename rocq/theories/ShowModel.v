(** What is printed, saved and plotted about a log: legacy/pipelines/analysis/analysis_parts.py 38-45, 110-167,
    legacy/analysis/event_log_analysis.py 39-105, the legend of legacy/analysis/event_log_analysis_canvas.py 108-123,
    legacy/log/functions.py 295-299 and legacy/pipelines/serialization/pipeline_parts.py 11-17.  A log is the list of the names of its
    events as in InfoModel.v.  A print is the list of the strings given to print. *)
From Coq Require Import ZArith QArith.
From Verif Require Import Py InfoModel SplitModel XesModel LogModel DrawModel ColorModel HighModel GraphModel.

Open Scope nat_scope.

(** What a part prints before it returns or raises, legacy/pipelines/analysis/analysis_parts.py 124-167. *)
Definition printed (A : Type) : Type := (list pystr * result A)%type.
(** One statement after another, legacy/pipelines/analysis/analysis_parts.py 140-150. *)
Definition pbind {A B} (x : printed A) (f : A -> printed B) : printed B :=
  match snd x with
  | Ok a => (fst x ++ fst (f a), snd (f a))
  | Err e => (fst x, Err e)
  end.
(** print(s), legacy/pipelines/analysis/analysis_parts.py 126. *)
Definition pprint (s : pystr) : printed unit := ([s], Ok tt).

(** The line of 44 signs, legacy/pipelines/analysis/analysis_parts.py 126, 130. *)
Definition rule : pystr := repeat 61%N 44.
(** f'{n}' of a count, legacy/pipelines/analysis/analysis_parts.py 127-129, 165. *)
Definition show_count (n : nat) : pystr := show_int (Z.of_nat n).

(** PrintEventLogInfo.execute, legacy/pipelines/analysis/analysis_parts.py 123-132. *)
Definition print_event_log_info (log : names_log) : printed names_log :=
  let info := create_log_information log None false in
  pbind (pprint rule) (fun _ =>
  pbind (pprint (str "Number of traces in log: " ++ show_count (length log))) (fun _ =>
  pbind (pprint (str "Number of events in log: " ++ show_count (list_sum (map (@length pystr) log)))) (fun _ =>
  pbind (pprint (str "Number of low-level event classes in log: " ++ show_count (length (li_events_count info)))) (fun _ =>
  pbind (pprint rule) (fun _ => ([], Ok log)))))).

(** PrintEventLogInfoBeforeAndAfter.execute, legacy/pipelines/analysis/analysis_parts.py 135-150; the inner
    pipeline is any function that may print. *)
Definition print_before_and_after (operation : pystr) (inner : names_log -> printed names_log) (log : names_log) : printed names_log :=
  pbind (pprint (str "Operation " ++ operation ++ str " started")) (fun _ =>
  pbind (print_event_log_info log) (fun _ =>
  pbind (inner log) (fun res =>
  pbind (print_event_log_info res) (fun _ =>
  pbind (pprint (str "Operation " ++ operation ++ str " finished")) (fun _ =>
  pbind (pprint []) (fun _ => ([], Ok res))))))).

(** The body of the loop over followed_events, legacy/pipelines/analysis/analysis_parts.py 160-165. *)
Definition print_followers (selector : pystr -> bool) (kv : pystr * dict pystr nat) : list pystr :=
  let '(event_name, followers) := kv in
  if selector event_name then
    (str "Followers of " ++ event_name ++ str ":")
      :: map (fun fc : pystr * nat => fst fc ++ str ": " ++ show_count (snd fc)) followers ++ [[]]
  else [].
(** PrintDFG.execute, legacy/pipelines/analysis/analysis_parts.py 153-167. *)
Definition print_dfg (selector : pystr -> bool) (log : names_log) : printed names_log :=
  (flat_map (print_followers selector) (d_followed (li_dfg (create_log_information log None false))), Ok log).

(** SaveAllEventNames.execute, legacy/pipelines/analysis/analysis_parts.py 110-120: what is written. *)
Definition save_all_event_names (log : names_log) : pystr :=
  str_join [10%N; 10%N] (dkeys (li_events_count (create_log_information log None false))).

Section Hist.
  Context {T : Type}.
  Variable names : T -> list pystr.

  (** The loops of _create_array_for_hist, legacy/analysis/event_log_analysis.py 41-48. *)
  Fixpoint hist_array (unique_traces : list (list T)) (eq_class : nat) : list nat * nat :=
    match unique_traces with
    | [] => ([], eq_class)
    | traces_list :: r =>
        let '(hist, c) := hist_array r (S eq_class) in (repeat eq_class (length traces_list) ++ hist, c)
    end.
  (** _create_array_for_hist, legacy/analysis/event_log_analysis.py 38-50. *)
  Definition create_array_for_hist (log : list T) : result (list nat * nat) :=
    bind (split_log_by_traces names log) (fun unique_traces => Ok (hist_array unique_traces 1)).

  (** The bars of drawer.hist(hist, bins=bins), legacy/analysis/event_log_analysis.py 66-67: numpy counts the values of
      a bin without its right edge, of the last bin with it. *)
  Fixpoint bars (bins : list nat) (hist : list nat) : list nat :=
    match bins with
    | a :: (b :: r) as tail =>
        length (filter (fun x => (a <=? x) && (if r then x <=? b else x <? b)) hist) :: bars tail hist
    | _ => []
    end.
  (** _do_paint_hist, legacy/analysis/event_log_analysis.py 66-67: the bars in the axes. *)
  Definition do_paint_hist (hc : list nat * nat) : list nat := bars (seq 1 (snd hc)) (fst hc).

  (** draw_traces_histogram and TracesHistogram, legacy/analysis/event_log_analysis.py 53-63 and
      legacy/pipelines/analysis/analysis_parts.py 38-45: plt.axis() is the tuple of the limits of the axes,
      which has no attribute hist. *)
  Definition draw_traces_histogram (log : list T) : result (list nat) :=
    bind (create_array_for_hist log) (fun _ => Err AttributeError).

  (** os.path.basename, legacy/analysis/event_log_analysis.py 90: what follows the last '/'. *)
  Fixpoint basename (p : pystr) (cur : pystr) : pystr :=
    match p with
    | [] => cur
    | c :: r => if N.eqb c 47 then basename r [] else basename r (cur ++ [c])
    end.

  (** What is put into one of the axes: row, col, title and bars, legacy/analysis/event_log_analysis.py 90-95. *)
  Record cell := mkCell { cell_row : nat; cell_col : nat; cell_title : pystr; cell_bars : list nat }.

  (** The body of the loops, legacy/analysis/event_log_analysis.py 90-95. *)
  Definition plot_cell (logs : list (list T)) (logs_names : list pystr) (row col log_index : nat) : result cell :=
    match nth_error logs_names log_index with
    | None => Err IndexError
    | Some n =>
        match nth_error logs log_index with
        | None => Err IndexError
        | Some l => bind (create_array_for_hist l) (fun hc =>
            Ok (mkCell row col (fst (splitext (basename n []))) (do_paint_hist hc)))
        end
    end.
  (** The loop over the columns of a row, legacy/analysis/event_log_analysis.py 86-97; [k] columns are left. *)
  Fixpoint plot_row (logs : list (list T)) (logs_names : list pystr) (row k col log_index : nat) : result (list cell * nat) :=
    match k with
    | 0 => Ok ([], log_index)
    | S k' =>
        if length logs <=? log_index then Ok ([], log_index)
        else bind (plot_cell logs logs_names row col log_index) (fun c =>
             bind (plot_row logs logs_names row k' (S col) (S log_index)) (fun '(cs, i) => Ok (c :: cs, i)))
    end.
  (** The loop over the rows, legacy/analysis/event_log_analysis.py 85-97; [k] rows are left. *)
  Fixpoint plot_rows (logs : list (list T)) (logs_names : list pystr) (side k row log_index : nat) : result (list cell) :=
    match k with
    | 0 => Ok []
    | S k' =>
        bind (plot_row logs logs_names row side 0 log_index) (fun '(cs, i) =>
        bind (plot_rows logs logs_names side k' (S row) i) (fun r => Ok (cs ++ r)))
    end.
  (** plot_logs_traces_histograms, legacy/analysis/event_log_analysis.py 76-105: plt.subplots(0, 0) is a ValueError and
      plt.subplots(1, 1) gives the only axes instead of an array, which cannot be indexed.  The rounding of
      math.sqrt is not modelled. *)
  Definition plot_logs_traces_histograms (logs : list (list T)) (logs_names : list pystr) : result (list cell) :=
    let side_length := Nat.sqrt_up (length logs) in
    if side_length =? 0 then Err ValueError
    else if side_length =? 1 then
      (if nth_error logs_names 0 then Err TypeError else Err IndexError)
    else plot_rows logs logs_names side_length side_length 0 0.
End Hist.

(** One entry of the legend of a canvas: the rectangle and its colour, the text and its place,
    legacy/analysis/event_log_analysis_canvas.py 113-121. *)
Record entry := mkEntry {
  e_x : Q; e_y : Q; e_w : Q; e_h : Q; e_color : pystr; e_name : pystr; e_text_x : Q; e_text_y : Q }.
(** _draw_legend, legacy/analysis/event_log_analysis_canvas.py 108-123: legend_rect_width is 40,
    legend_rect_height 20, x_delta 10 (8-10).  Simplification: exact quotients. *)
Fixpoint draw_legend (current_x before_height : Q) (names_to_colors : dict pystr pystr) (index : nat) : list entry :=
  match names_to_colors with
  | [] => []
  | (name, color) :: r =>
      let y := (before_height + 20 * inject_Z (Z.of_nat index))%Q in
      mkEntry current_x y 40 20 color name (current_x + 40 + 10) (y + 20 / (14 # 10)) :: draw_legend current_x before_height r (S index)
  end.
(** draw_colors_event_log_canvas with plot_legend, legacy/analysis/event_log_analysis_canvas.py 24-55: the width and
    the height of the canvas and its legend. *)
Definition canvas_legend (css : list (list colored)) (titled : bool) (ws hs : N) : result (Q * Q * list entry) :=
  bind (draw_canvas css titled true ws hs) (fun '(_, width, height, names_to_colors) =>
  let q := fun n => inject_Z (Z.of_N n) in
  let before_height := (q height - 20 * inject_Z (Z.of_nat (length names_to_colors)))%Q in
  Ok (q width, q height, draw_legend (q width / 3) before_height names_to_colors 0)).

(** os.path.dirname of the posixpath module, legacy/log/functions.py 297: what is before the last '/', without the
    '/' at its end unless there is nothing else. *)
Fixpoint drop_slashes (rev_head : pystr) : pystr :=
  match rev_head with c :: r => if N.eqb c 47 then drop_slashes r else rev_head | [] => [] end.
(** The part up to and with the last '/', legacy/log/functions.py 297. *)
Fixpoint from_slash (rev_path : pystr) : pystr :=
  match rev_path with c :: r => if N.eqb c 47 then rev_path else from_slash r | [] => [] end.
(** os.path.dirname, legacy/log/functions.py 297. *)
Definition dirname (p : pystr) : pystr :=
  let head := from_slash (rev p) in
  match drop_slashes head with [] => rev head | h => rev h end.

(** save_event_log_to_xes and SaveEventLogToXes, legacy/log/functions.py 295-299 and
    legacy/pipelines/serialization/pipeline_parts.py 11-17, as an effect on the files of a file system on which
    every directory can be made; os.makedirs('') is a FileNotFoundError. *)
Definition save_event_log_to_xes (xes : result pystr) (save_path : pystr) (files : dict pystr pystr) : result (dict pystr pystr) :=
  bind xes (fun log_xes_string =>
  match dirname save_path with
  | [] => Err UserError
  | _ => Ok (dset str_eq_dec files save_path log_xes_string)
  end).
