(** Diagrams of activities and of coloured logs: legacy/analysis/patterns/patterns_graphs.py 75-154,
    240-292, legacy/analysis/event_log_analysis.py 155-172, 239-267, and the rectangles of
    legacy/analysis/event_log_analysis_canvas.py 61-105.  As in ColorModel.v a diagram is its rectangles
    and its legend.  Positions and lengths are non-negative ints. *)
From Verif Require Import Py LogModel ActLogModel ColorModel.

(** SubTraceDrawingDto, patterns_graphs.py 75-80. *)
Record dto := mkDto { d_start : N; d_len : N; d_hash : Z; d_name : pystr }.

Section Random.
  Variable rnd : nat -> N.
  Variable fuel : nat.

  (** colors_provider of _sub_traces_draw_func, legacy/analysis/patterns/patterns_graphs.py 90-99. *)
  Definition sub_color (name : pystr) : st (provider * dict pystr pystr) pystr :=
    fun s =>
      match dget str_eq_dec (snd s) name with
      | Some c => (s, Ok c)
      | None => if str_eqb name undefined_activity then (s, Ok (to_hex 0 0 0))
                else let '(p, r) := next_color rnd fuel (fst s) in
                     match r with Ok c => ((p, dset str_eq_dec (snd s) name c), Ok c) | Err e => ((p, snd s), Err e) end
      end.

  Section Sub.
    Variables rect_width rect_height : N.
    Variable draw_short_diagram : bool.

    (** width = ctx.rect_width; if not draw_short_diagram: width *= n (legacy/analysis/patterns/patterns_graphs.py 106-108, 120-122, 135-137, 147-149). *)
    Definition sub_width (n : N) : N := if draw_short_diagram then rect_width else (rect_width * n)%N.

    (** legacy/analysis/patterns/patterns_graphs.py 131-133. *)
    Definition sub_pick (activities_colors : dict Z pystr) (d : dto) : st (provider * dict pystr pystr) (dict Z pystr) :=
      if dmem Z.eq_dec activities_colors (d_hash d) then sret activities_colors
      else sbind (sub_color (d_name d)) (fun c => sret (dset Z.eq_dec activities_colors (d_hash d) c)).

    (** legacy/analysis/patterns/patterns_graphs.py 119-128: the gap before a sub trace; its patches, current_x, names_to_rects. *)
    Definition draw_gap (last pos x y : N) (rects : dict pystr rect)
      : st (provider * dict pystr pystr) (list rect * N * dict pystr rect) :=
      if (last <? pos)%N then
        sbind (sub_color undefined_activity) (fun c =>
          let rc := mkRect x y (sub_width (pos - last)) rect_height c in
          sret ([rc], x + sub_width (pos - last), dset str_eq_dec rects undefined_activity rc)%N)
      else sret ([], x, rects).

    (** The loop over the sub traces of a trace and the gap after them, legacy/analysis/patterns/patterns_graphs.py 118-153; the last gap does not
        enter names_to_rects. *)
    Fixpoint draw_subs (ds : list dto) (len last x y : N) (ac : dict Z pystr) (rects : dict pystr rect)
      : st (provider * dict pystr pystr) (list rect * dict Z pystr * dict pystr rect) :=
      match ds with
      | [] => if (last <? len)%N then
                sbind (sub_color undefined_activity) (fun c => sret ([mkRect x y (sub_width (len - last)) rect_height c], ac, rects))
              else sret ([], ac, rects)
      | d :: r =>
          sbind (draw_gap last (d_start d) x y rects) (fun g =>
          sbind (sub_pick ac d) (fun ac' =>
          match dgetitem Z.eq_dec ac' (d_hash d) with
          | Err e => sfail e
          | Ok c =>
              let x' := snd (fst g) in
              let rc := mkRect x' y (sub_width (d_len d)) rect_height c in
              sbind (draw_subs r len (d_start d + d_len d) (x' + sub_width (d_len d)) y ac' (dset str_eq_dec (snd g) (d_name d) rc))%N
                (fun out => sret (fst (fst g) ++ rc :: fst (fst out), snd (fst out), snd out))
          end))
      end.

    (** One trace, legacy/analysis/patterns/patterns_graphs.py 105-155. *)
    Definition draw_sub_trace (ds : list dto) (len y : N) (ac : dict Z pystr) (rects : dict pystr rect)
      : st (provider * dict pystr pystr) (list rect * dict Z pystr * dict pystr rect) :=
      match ds with
      | [] => sbind (sub_color undefined_activity) (fun c =>
                let rc := mkRect 0 y (sub_width len) rect_height c in
                sret ([rc], ac, dset str_eq_dec rects undefined_activity rc))
      | _ => draw_subs ds len 0 0 y ac rects
      end.

    (** The loop over the traces, legacy/analysis/patterns/patterns_graphs.py 104-157: zip stops at the shorter list; the log by the lengths of its
        traces; y_delta_between_traces is 0. *)
    Fixpoint draw_sub_traces (dss : list (list dto)) (lens : list nat) (y : N) (ac : dict Z pystr) (rects : dict pystr rect)
      : st (provider * dict pystr pystr) drawing :=
      match dss, lens with
      | ds :: dss', len :: lens' =>
          sbind (draw_sub_trace ds (N.of_nat len) y ac rects) (fun out =>
          sbind (draw_sub_traces dss' lens' (y + (rect_height + 0))%N (snd (fst out)) (snd out)) (fun rest =>
          sret (fst (fst out) :: fst rest, snd rest)))
      | _, _ => sret ([], rects)
      end.
  End Sub.

  (** _do_draw_activity_diagram (legacy/analysis/patterns/patterns_graphs.py 44-72) and draw_patterns (305-333) after the sub traces are listed:
      _sub_traces_draw_func 83-157 in _draw_traces_diversity_like_diagram_internal. *)
  Definition draw_sub_diagram (lens : list nat) (dss : list (list dto)) (short : bool) (width_scale height_scale : N)
    : st (provider * dict pystr pystr) (drawing * (N * N)) :=
    draw_internal lens (draw_sub_traces (1 * width_scale)%N (1 * height_scale)%N short dss lens 0 [] []) width_scale height_scale.

  (** draw_activity_placement_diagram, 240-292.  [next1] is color_provider.next, [reset1] its reset;
      an activity instance is its name, start and length.  rect_width is 1 (width_scale is not passed). *)
  Section Placement.
    Context {S : Type}.
    Variable next1 : st S pystr.
    Variable reset1 : st S unit.
    Variable activity : pystr.
    Variable rect_height : N.

    (** legacy/analysis/patterns/patterns_graphs.py 259-280. *)
    Fixpoint place_acts (acts : list (pystr * N * N)) (len last x y : N) (rects : dict pystr rect) : st S (list rect * dict pystr rect) :=
      match acts with
      | [] => if (last <? len)%N then
                let rc := mkRect x y (len - last) rect_height (to_hex 0 0 0) in
                sret ([rc], dset str_eq_dec rects undefined_activity rc)
              else sret ([], rects)
      | (nm, start, ln) :: r =>
          if str_eqb nm activity then
            let '(gap, last', x', rects') :=
              if (last <? start)%N then
                let rc := mkRect x y ((start - last) * 1) rect_height (to_hex 0 0 0) in
                ([rc], start, x + (start - last) * 1, dset str_eq_dec rects undefined_activity rc)%N
              else ([], last, x, rects) in
            sbind next1 (fun c =>
              let rc := mkRect x' y (ln * 1) rect_height c in
              sbind (place_acts r len (last' + ln)%N (x' + ln * 1)%N y (dset str_eq_dec rects' nm rc)) (fun out =>
                sret (gap ++ rc :: fst out, snd out)))
          else place_acts r len last x y rects
      end.

    (** legacy/analysis/patterns/patterns_graphs.py 254-284. *)
    Fixpoint place_traces (actss : list (list (pystr * N * N))) (lens : list nat) (y : N) (rects : dict pystr rect) : st S drawing :=
      match actss, lens with
      | acts :: actss', len :: lens' =>
          sbind (place_acts acts (N.of_nat len) 0 0 y rects) (fun out =>
          sbind reset1 (fun _ =>
          sbind (place_traces actss' lens' (y + rect_height)%N (snd out)) (fun rest =>
          sret (fst out :: fst rest, snd rest))))
      | _, _ => sret ([], rects)
      end.
  End Placement.

  (** use_different_colors: the global provider itself, legacy/analysis/patterns/patterns_graphs.py 249. *)
  Definition draw_placement_different (activity : pystr) (actss : list (list (pystr * N * N))) (lens : list nat) (height_scale : N)
    : st provider (drawing * (N * N)) :=
    draw_internal lens
      (place_traces (next_color rnd fuel) (fun p => (reset_provider p, Ok tt)) activity (1 * height_scale)%N actss lens 0 [])
      1 height_scale.

  (** Otherwise a SingleColorProvider, legacy/analysis/patterns/patterns_graphs.py 249. *)
  Definition draw_placement_single (activity : pystr) (actss : list (list (pystr * N * N))) (lens : list nat) (height_scale : N)
    : st provider (drawing * (N * N)) :=
    fun p =>
      let '(p1, r) := new_single rnd fuel p in
      match r with
      | Err e => (p1, Err e)
      | Ok c =>
          let '((p2, _), r2) :=
            draw_internal lens
              (place_traces single_next (single_reset rnd fuel) activity (1 * height_scale)%N actss lens 0 [])
              1 height_scale (p1, c) in
          (p2, r2)
      end.
End Random.

(** ColoredRectangle with its colour (event_log_analysis.py 22-36); start_pos is not used when drawing. *)
Record colored := mkColored { c_color : N * N * N; c_len : N; c_name : pystr }.
(** Color.to_hex, legacy/analysis/event_log_analysis.py 27-28. *)
Definition color_hex (c : N * N * N) : pystr := to_hex (fst (fst c)) (snd (fst c)) (snd c).

(** The inner loop of draw_colors_event_log, legacy/analysis/event_log_analysis.py 250-255. *)
Fixpoint colored_row (w h : N) (cs : list colored) (x y : N) (rects : dict pystr rect) : list rect * dict pystr rect :=
  match cs with
  | [] => ([], rects)
  | c :: r =>
      let rc := mkRect x y (w * c_len c) h (color_hex (c_color c)) in
      let key := if 50 <? length (c_name c) then firstn 50 (c_name c) else c_name c in
      let '(rs, rects') := colored_row w h r (x + w * c_len c)%N y (dset str_eq_dec rects key rc) in
      (rc :: rs, rects')
  end.
(** The outer loop, legacy/analysis/event_log_analysis.py 247-259. *)
Fixpoint colored_rows (w h : N) (css : list (list colored)) (y : N) (rects : dict pystr rect) : drawing :=
  match css with
  | [] => ([], rects)
  | cs :: r => let '(rs, rects') := colored_row w h cs 0 y rects in
               let '(rss, rects'') := colored_rows w h r (y + (h + 0))%N rects' in (rs :: rss, rects'')
  end.
(** x_ticks_count for a list of lists, legacy/analysis/event_log_analysis.py 157-164. *)
Definition colored_ticks (css : list (list colored)) (ws : N) : N :=
  fold_left (fun m cs => N.max m (fold_left (fun l c => l + c_len c * ws)%N cs ws)) css 0%N.
(** The labels of the axes for a list, legacy/analysis/event_log_analysis.py 148-170: IndexError when there are no x ticks. *)
Definition colored_axes (css : list (list colored)) (ws hs : N) : result (N * N) :=
  if (hs =? 0)%N then Err ZeroDivisionError
  else if (colored_ticks css ws =? 0)%N then Err IndexError
  else Ok ((N.of_nat (length css) * hs + 1 - 1) / hs, (colored_ticks css ws - 1) / ws)%N.
(** draw_colors_event_log, legacy/analysis/event_log_analysis.py 239-267. *)
Definition draw_colors_event_log (css : list (list colored)) (ws hs : N) : result (drawing * (N * N)) :=
  let d := colored_rows (1 * ws)%N (1 * hs)%N css 0 [] in
  bind (colored_axes css ws hs) (fun a => Ok (d, a)).

(** _calculate_canvas_width, event_log_analysis_canvas.py 61-62: max of an empty sequence is a ValueError. *)
Definition canvas_width (css : list (list colored)) : result N :=
  match css with
  | [] => Err ValueError
  | _ => Ok (fold_right N.max 0 (map (fun cs => fold_right N.add 0 (map c_len cs)) css))%N
  end.
(** canvas.fill_rect in _draw_actual_traces_diversity_diagram, 92-105; overall_delta is 21 (13).  legacy/analysis/event_log_analysis_canvas.py 92-105. *)
Fixpoint canvas_row (ws hs : N) (cs : list colored) (x y : N) : list rect :=
  match cs with
  | [] => []
  | c :: r => mkRect x y (c_len c * ws) hs (color_hex (c_color c)) :: canvas_row ws hs r (x + c_len c * ws)%N y
  end.
(** legacy/analysis/event_log_analysis_canvas.py 88-105. *)
Fixpoint canvas_rows (ws hs : N) (css : list (list colored)) (y : N) : list (list rect) :=
  match css with
  | [] => []
  | cs :: r => canvas_row ws hs cs 21 y :: canvas_rows ws hs r (y + hs)%N
  end.
(** draw_colors_event_log_canvas, 18-58: the rectangles, the width and height of the canvas, and the
    legend (31-38); title_height is 20 or 10 (26), axes_margin 15, legend_rect_height 20.  legacy/analysis/event_log_analysis_canvas.py 18-58. *)
Definition draw_canvas (css : list (list colored)) (titled plot_legend : bool) (ws hs : N)
  : result (list (list rect) * N * N * dict pystr pystr) :=
  bind (canvas_width css) (fun max_width =>
  let title_height := if titled then 20%N else 10%N in
  let legend := if plot_legend
    then fold_left (fun d c => dset str_eq_dec d (c_name c) (color_hex (c_color c))) (concat css) [] else [] in
  Ok (canvas_rows ws hs css title_height, max_width * ws + 21 + 15,
      N.of_nat (length css) * hs + 21 + title_height + N.of_nat (length legend) * 20, legend)%N).
