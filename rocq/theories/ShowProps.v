(** C60: what is printed, saved and plotted about a log. *)
From Coq Require Import ZArith QArith Lia.
From Verif Require Import Py InfoModel InfoSpec SplitModel SplitSpec SplitProofs XesModel XesProofs LogModel TextModel TextSpec TextProofs ColorModel DrawModel HighModel GraphModel
  ShowModel ShowSpec ShowProofs.
Open Scope nat_scope.

(** Two logs for the examples. *)
Definition show_demo : list (list pystr) := [[str "a"; str "b"; str "a"; str "b"]; [str "c"]; [str "a"; str "c"]].

(** PrintEventLogInfo: the numbers printed are those of the traces, the events and the different names. *)
Theorem C60_print_info : forall log,
  print_event_log_info log = (info_lines log, Ok log) /\
  NoDup (once str_eq_dec (concat log)) /\ (forall n, In n (once str_eq_dec (concat log)) <-> exists t, In t log /\ In n t) /\
  (forall k, parse_int (show_int (Z.of_nat k)) = Ok (Z.of_nat k)).
Proof.
  intros log. split; [apply print_info_proof|]. split; [apply once_NoDup|]. split; [|intros k; apply parse_show_int].
  intros n. rewrite once_In, in_concat. reflexivity.
Qed.
Print Assumptions C60_print_info.
Example C60_print_info_case : fst (print_event_log_info show_demo) =
  [repeat 61%N 44; str "Number of traces in log: 3"; str "Number of events in log: 7"; str "Number of low-level event classes in log: 3"; repeat 61%N 44].
Proof. vm_compute. reflexivity. Qed.

(** PrintEventLogInfoBeforeAndAfter: the log given, what the inner pipeline prints, the log returned; the end is
    not printed when the inner pipeline raises. *)
Theorem C60_before_and_after : forall operation inner log,
  print_before_and_after operation inner log =
    match inner log with
    | (out, Ok res) => ([str "Operation " ++ operation ++ str " started"] ++ info_lines log ++ out ++ info_lines res
                          ++ [str "Operation " ++ operation ++ str " finished"; []], Ok res)
    | (out, Err e) => ([str "Operation " ++ operation ++ str " started"] ++ info_lines log ++ out, Err e)
    end.
Proof. exact before_after_proof. Qed.
Print Assumptions C60_before_and_after.
Example C60_before_and_after_case :
  print_before_and_after (str "x") (fun l => ([str "hi"], Ok (tl l))) [[str "a"]; []] =
   ([str "Operation x started"; repeat 61%N 44; str "Number of traces in log: 2"; str "Number of events in log: 1";
     str "Number of low-level event classes in log: 1"; repeat 61%N 44; str "hi"; repeat 61%N 44; str "Number of traces in log: 1";
     str "Number of events in log: 0"; str "Number of low-level event classes in log: 0"; repeat 61%N 44; str "Operation x finished"; []], Ok [[]]) /\
  snd (print_before_and_after (str "x") (fun l => ([], Err KeyError)) [[str "a"]; []]) = Err KeyError.
Proof. split; vm_compute; reflexivity. Qed.

(** PrintDFG: one block for every selected name that is followed by one, in the order in which the names first take
    a step, in it every follower once with the number of the steps. *)
Theorem C60_print_dfg : forall selector log,
  print_dfg selector log =
    (flat_map (fun e =>
       (str "Followers of " ++ e ++ str ":")
       :: map (fun f => f ++ str ": " ++ show_int (Z.of_nat (times (same_step (e, f)) (log_steps log)))) (once str_eq_dec (followers_of e (log_steps log)))
       ++ [[]]) (filter selector (once str_eq_dec (map fst (log_steps log)))), Ok log).
Proof. exact print_dfg_proof. Qed.
Print Assumptions C60_print_dfg.
Example C60_print_dfg_case : fst (print_dfg (fun n => negb (str_eqb n (str "b"))) show_demo) =
  [str "Followers of a:"; str "b: 2"; str "c: 1"; []] /\
  fst (print_dfg (fun _ => true) show_demo) = [str "Followers of a:"; str "b: 2"; str "c: 1"; []; str "Followers of b:"; str "a: 1"; []].
Proof. split; vm_compute; reflexivity. Qed.

(** The text on the screen does not determine the graph: names may contain ends of lines. *)
Theorem C60_print_dfg_refuted : exists log log' f,
  joined [10%N] (fst (print_dfg (fun _ => true) log)) = joined [10%N] (fst (print_dfg (fun _ => true) log')) /\
  In f (map snd (log_steps log)) /\ ~ In f (map snd (log_steps log')).
Proof.
  exists [[str "a"; str "b"]; [str "a"; str "c"]], [[str "a"; str "b: 1" ++ [10%N] ++ str "c"]], (str "b").
  split; [vm_compute; reflexivity|]. split; [left; reflexivity|]. vm_compute. intros [H|[]]; discriminate.
Qed.
Print Assumptions C60_print_dfg_refuted.

(** SaveAllEventNames: every name once, an empty line between two; the names can be read from the file exactly when
    there is one and none runs into the separators. *)
Theorem C60_save_names : forall log,
  save_all_event_names log = joined [10%N; 10%N] (once str_eq_dec (concat log)) /\
  (split_go [10%N; 10%N] (save_all_event_names log) 0 [] = once str_eq_dec (concat log) <-> splittable [10%N; 10%N] (once str_eq_dec (concat log))).
Proof. intros log. rewrite save_names_proof. split; [reflexivity|]. apply splittable_iff. discriminate. Qed.
Print Assumptions C60_save_names.
Example C60_save_names_case : save_all_event_names show_demo = [97; 10; 10; 98; 10; 10; 99]%N /\
  split_go [10%N; 10%N] (save_all_event_names show_demo) 0 [] = [str "a"; str "b"; str "c"].
Proof. split; vm_compute; reflexivity. Qed.
Theorem C60_save_names_refuted : exists log log' n,
  save_all_event_names log = save_all_event_names log' /\ In n (concat log) /\ ~ In n (concat log').
Proof.
  exists [[str "a" ++ [10%N]; str "b"]], [[str "a"; [10%N] ++ str "b"]], (str "b").
  split; [vm_compute; reflexivity|]. split; [right; left; reflexivity|]. vm_compute. intros [H|[H|[]]]; discriminate.
Qed.
Print Assumptions C60_save_names_refuted.

(** The histogram of a log: one bar for every variant, its height the number of its traces, if no two names of
    the log have the same hash. *)
Theorem C60_histogram : forall (T : Type) (names : T -> list pystr) (log : list T),
  collision_free_names names log ->
  exists hc vs, create_array_for_hist names log = Ok hc /\ NoDup vs /\ (forall v, In v vs <-> exists t, In t log /\ names t = v) /\
    do_paint_hist hc = map (fun v => times (is_variant names v) log) vs.
Proof. exact @histogram_proof. Qed.
Print Assumptions C60_histogram.
Example C60_histogram_case : create_array_for_hist (fun t => t) ([str "c"] :: show_demo) = Ok ([1; 1; 2; 3], 4) /\
  do_paint_hist ([1; 1; 2; 3], 4) = [2; 1; 1].
Proof. split; vm_compute; reflexivity. Qed.
(** In any case the bars are the sizes of the groups of C09 and C10. *)
Theorem C60_histogram_groups : forall (T : Type) (names : T -> list pystr) (log : list T) gs,
  split_log_by_traces names log = Ok gs ->
  exists hc, create_array_for_hist names log = Ok hc /\ do_paint_hist hc = map (@length T) gs /\ fold_right Nat.add 0 (do_paint_hist hc) = length log.
Proof.
  intros T names log gs E. destruct (hist_bars_groups names log gs E) as (hc & H1 & H2). exists hc. split; [exact H1|]. split; [exact H2|].
  rewrite H2. destruct (split_partition_proof names log) as (gs' & E' & Hp & _). assert (gs' = gs) as -> by congruence.
  rewrite <- (Permutation.Permutation_length Hp). change (fold_right Nat.add 0) with list_sum. apply concat_len.
Qed.
Print Assumptions C60_histogram_groups.
Example C60_histogram_groups_case : split_log_by_traces (fun t => t) [[str "aB"]; [str "BC"]; []] = Ok [[[str "aB"]; [str "BC"]]; [[]]] /\
  do_paint_hist (hist_array [[[str "aB"]; [str "BC"]]; [[]]] 1) = [2; 1].
Proof. split; vm_compute; reflexivity. Qed.

(** TracesHistogram never draws. *)
Theorem C60_traces_histogram_refuted : forall (T : Type) (names : T -> list pystr) (log : list T), draw_traces_histogram names log = Err AttributeError.
Proof.
  intros T names log. unfold draw_traces_histogram, create_array_for_hist. destruct (split_partition_proof names log) as (gs & E & _). rewrite E. reflexivity.
Qed.
Print Assumptions C60_traces_histogram_refuted.

(** Histograms of several logs: the cells are filled row by row in the order of the logs, each with the name of its
    file without extension; the grid is the smallest square that holds them.  Missing names are an IndexError. *)
Theorem C60_plot_logs : forall (T : Type) (names : T -> list pystr) logs ns, 2 <= length logs ->
  exists side, (side - 1) * (side - 1) < length logs <= side * side /\
  (length logs <= length ns ->
   exists cells, plot_logs_traces_histograms names logs ns = Ok cells /\ length cells = length logs /\
     forall i log n f, nth_error logs i = Some log -> nth_error ns i = Some n -> file_of n f ->
       exists hc row col, create_array_for_hist names log = Ok hc /\ row < side /\ col < side /\ i = row * side + col /\
         nth_error cells i = Some (mkCell row col (fst (splitext f)) (do_paint_hist hc))) /\
  (length ns < length logs -> plot_logs_traces_histograms names logs ns = Err IndexError).
Proof.
  intros T names logs ns Hn. exists (Nat.sqrt_up (length logs)). destruct (Nat.sqrt_up_spec (length logs)) as [H1 H2]; [lia|].
  assert (H3 : 2 <= Nat.sqrt_up (length logs)) by (change 2 with (Nat.sqrt_up 2) at 1; apply Nat.sqrt_up_le_mono, Hn).
  split; [rewrite Nat.sub_1_r; split; [exact H1|exact H2]|]. destruct (plot_proof names logs ns Hn) as [P1 P2]. split; [|exact P2].
  intros Hle. destruct (P1 Hle) as (cells & E1 & E2 & E3). exists cells. split; [exact E1|]. split; [exact E2|].
  intros i log n f Hl Hs Hf. destruct (E3 i log n f Hl Hs Hf) as (hc & Eh & Ec). exists hc, (i / Nat.sqrt_up (length logs)), (i mod Nat.sqrt_up (length logs)).
  split; [exact Eh|]. assert (Hi : i < length logs) by (apply nth_error_Some; congruence).
  split; [apply Nat.div_lt_upper_bound; lia|]. split; [apply Nat.mod_upper_bound; lia|]. split; [|exact Ec].
  rewrite Nat.mul_comm. apply Nat.div_mod. lia.
Qed.
Print Assumptions C60_plot_logs.
Example C60_plot_logs_case :
  plot_logs_traces_histograms (fun t => t) [show_demo; [[str "a"]; [str "a"]]; [[str "b"]]] [str "/d.1/x.y.xes"; str "u.xes"; str "v"] =
    Ok [mkCell 0 0 (str "x.y") [1; 1; 1]; mkCell 0 1 (str "u") [2]; mkCell 1 0 (str "v") [1]] /\ file_of (str "/d.1/x.y.xes") (str "x.y.xes").
Proof.
  split; [vm_compute; reflexivity|]. split; [vm_compute; intuition discriminate|]. right. exists (str "/d.1"). reflexivity.
Qed.
(** One log alone, or none, cannot be plotted. *)
Theorem C60_plot_one_log_refuted : forall (T : Type) (names : T -> list pystr) logs ns, length logs <= 1 ->
  exists e, plot_logs_traces_histograms names logs ns = Err e.
Proof.
  intros T names [|l [|l' logs]] ns H; [eexists; reflexivity| |cbn in H; lia]. unfold plot_logs_traces_histograms. cbn [length].
  change (Nat.sqrt_up 1) with 1. cbn [Nat.eqb]. destruct (nth_error ns 0); eauto.
Qed.
Print Assumptions C60_plot_one_log_refuted.

(** The legend on a canvas: every name once, in the order of first appearance, with the colour of its last
    rectangle; the rectangles are below the diagram, one below the other, and above the lower end of the canvas. *)
Theorem C60_canvas_legend : forall css titled ws hs, css <> [] ->
  exists rows width height legend entries,
    draw_canvas css titled true ws hs = Ok (rows, width, height, legend) /\
    canvas_legend css titled ws hs = Ok (inject_Z (Z.of_N width), inject_Z (Z.of_N height), entries) /\
    map e_name entries = once str_eq_dec (map c_name (concat css)) /\
    (forall i e, nth_error entries i = Some e ->
       (exists c, last_named (e_name e) (concat css) c /\ color_hex (c_color c) = e_color e) /\ (e_w e == 40)%Q /\ (e_h e == 20)%Q /\
       (e_x e == inject_Z (Z.of_N width) / 3)%Q /\
       (e_y e == inject_Z (Z.of_N (N.of_nat (length css) * hs + 21 + (if titled then 20 else 10)) + 20 * Z.of_nat i))%Q /\
       (e_y e + e_h e <= inject_Z (Z.of_N height))%Q) /\
    (forall i j a b, i < j -> nth_error entries i = Some a -> nth_error entries j = Some b -> (e_y a + e_h a <= e_y b)%Q) /\
    (forall e, In e entries -> ((e_x e + e_w e <= inject_Z (Z.of_N width))%Q <-> (60 <= width)%N)).
Proof.
  intros css titled ws hs Hc. destruct (legend_proof css titled ws hs Hc) as (rows & w & h & d & es & H1 & H2 & H3 & H4 & H5).
  exists rows, w, h, d, es. split; [exact H1|]. split; [exact H2|]. split; [exact H3|]. split; [|exact H5].
  intros i e He. destruct (H4 i e He) as [Hl Hr]. split; [|exact Hr]. apply last_color_spec. symmetry. exact Hl.
Qed.
Print Assumptions C60_canvas_legend.
Example C60_canvas_legend_case :
  let a := mkColored (255, 0, 10)%N 2 (str "a") in let b := mkColored (0, 0, 1)%N 1 (str "b") in let a2 := mkColored (1, 1, 1)%N 2 (str "a") in
  match canvas_legend [[a; b]; [b; a2]] true 20 3 with
  | Ok (w, h, es) => (Qeq_bool w 96 && Qeq_bool h 87, map e_name es, map e_color es, forallb (fun e => Qeq_bool (e_x e) 32) es, map (fun e => Qred (e_y e)) es)
  | Err _ => (false, [], [], false, []) end = (true, [str "a"; str "b"], [str "#010101"; str "#000001"], true, [47%Q; 67%Q]).
Proof. vm_compute. reflexivity. Qed.
(** The legend of a narrow diagram is cut off at the right. *)
Theorem C60_canvas_legend_refuted : exists css titled ws hs w h es e,
  canvas_legend css titled ws hs = Ok (w, h, es) /\ In e es /\ (w < e_x e + e_w e)%Q.
Proof.
  exists [[mkColored (0, 0, 0)%N 5 (str "a"); mkColored (0, 0, 0)%N 7 (str "b")]], false, 1%N, 1%N. eexists. eexists. eexists. eexists.
  split; [vm_compute; reflexivity|]. split; [left; reflexivity|]. vm_compute. reflexivity.
Qed.
Print Assumptions C60_canvas_legend_refuted.

(** SaveEventLogToXes: a path with a directory gets the text of the log and no other file changes; a bare file
    name is an error. *)
Theorem C60_save_xes : forall xes path files,
  (In 47%N path -> exists files', save_event_log_to_xes (Ok xes) path files = Ok files' /\ dget str_eq_dec files' path = Some xes /\
      forall q, q <> path -> dget str_eq_dec files' q = dget str_eq_dec files q) /\
  (~ In 47%N path -> exists e, save_event_log_to_xes (Ok xes) path files = Err e) /\
  (forall e, save_event_log_to_xes (Err e) path files = Err e).
Proof. exact save_xes_proof. Qed.
Print Assumptions C60_save_xes.
Example C60_save_xes_case : save_event_log_to_xes (Ok (str "<log/>")) (str "/a.xes") [(str "b", [])] = Ok [(str "b", []); (str "/a.xes", str "<log/>")] /\
  dirname (str "x//y/a.xes") = str "x//y" /\ dirname (str "//a") = str "//" /\ dirname (str "x//a") = str "x".
Proof. repeat split; vm_compute; reflexivity. Qed.
Theorem C60_save_xes_refuted : exists xes path, forall files, save_event_log_to_xes (Ok xes) path files = Err UserError.
Proof. exists (str "<log/>"), (str "log.xes"). intros files. reflexivity. Qed.
Print Assumptions C60_save_xes_refuted.
