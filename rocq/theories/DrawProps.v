(** Property C50: activity diagrams and coloured logs cover each trace exactly. *)
From Verif Require Import Py PyFacts LogModel ActLogModel ColorModel ColorSpec ColorProofs ColorDrawProofs ColorProps
  DrawModel DrawSpec DrawProofs DrawPlaceProofs.

(** A diagram of sub traces: every trace is a row at its height; its pieces are the sub traces and the gaps,
    in order.  The full diagram covers exactly the trace, every position in the colour of its sub trace or
    of the undefined activity; the short one has one cell per piece.  A hash has one colour, the one of the
    name under which it is met.  Cached colours stay; only drawn names are added. *)
Theorem C50_sub_traces : forall rnd fuel lens dss short ws hs p ca p' ca' r,
  draw_sub_diagram rnd fuel lens dss short ws hs (p, ca) = ((p', ca'), r) ->
  (forall n c, dget str_eq_dec ca n = Some c -> dget str_eq_dec ca' n = Some c) /\
  (forall n, ~ In n (map d_name (drawn_subs dss lens)) -> dget str_eq_dec ca' n = dget str_eq_dec ca n) /\
  (distinct ca -> taken ca p -> distinct ca' /\ taken ca' p') /\
  match r with
  | Ok ((rows, legend), labels) =>
      labels = (N.of_nat (length lens), N.of_nat (fold_right Nat.max 0 lens)) /\
      length rows = Nat.min (length dss) (length lens) /\
      incl (map d_name (drawn_subs dss lens)) (dkeys legend) /\
      exists acol,
        (forall d, In d (drawn_subs dss lens) -> exists d', In d' (drawn_subs dss lens) /\ d_hash d' = d_hash d /\
           acol (d_hash d) = name_color ca' (d_name d') /\ (d_name d' <> undefined_activity -> dget str_eq_dec ca' (d_name d') <> None)) /\
        forall k ds len, nth_error dss k = Some ds -> nth_error lens k = Some len ->
          exists row, nth_error rows k = Some row /\ Forall (fun r => ry r = N.of_nat k * hs /\ rh r = hs)%N row /\
            map fc row = map (fun o => match o with Some z => acol z | None => name_color ca undefined_activity end) (trace_pieces ds (N.of_nat len)) /\
            (short = true -> side_by_side 0 row (N.of_nat (length (trace_pieces ds (N.of_nat len))) * ws) /\ Forall (fun r => rw r = ws) row) /\
            (short = false -> well_placed 0 ds (N.of_nat len) ->
               side_by_side 0 row (N.of_nat len * ws) /\
               forall i, (i < N.of_nat len)%N ->
                 (forall d, In d ds -> covers d i -> painted_at ws row i (acol (d_hash d))) /\
                 ((forall d, In d ds -> ~ covers d i) -> painted_at ws row i (name_color ca undefined_activity)))
  | Err e => e = Diverges \/ (e = OverflowError /\ N.of_nat (length (used p')) = (256 ^ 3)%N) \/
             (e = ZeroDivisionError /\ (hs = 0 \/ ws = 0)%N) \/ (e = ValueError /\ lens = [])
  end.
Proof. exact sub_proof. Qed.
Print Assumptions C50_sub_traces.
Example C50_sub_traces_case :
  let A := mkDto 1 2 7 (str "A") in let B := mkDto 3 1 9 (str "B") in
  let R x y w s := mkRect x y w 2 (str s) in
  well_placed 0 [A; B] 5 /\
  (exists lg, snd (draw_sub_diagram counting 3 [5; 2] [[A; B]; []] false 3 2 (new_provider 0, [(undefined_activity, str "#ABCDEF")])) =
   Ok (([[R 0 0 3 "#ABCDEF"%string; R 3 0 6 "#000000"%string; R 9 0 3 "#010101"%string; R 12 0 3 "#ABCDEF"%string];
         [R 0 2 6 "#ABCDEF"%string]]%N, lg), (2, 5)%N)) /\
  (exists lg, snd (draw_sub_diagram counting 3 [5; 2] [[A; B]; []] true 3 2 (new_provider 0, [])) =
   Ok (([[R 0 0 3 "#000000"%string; R 3 0 3 "#000000"%string; R 6 0 3 "#010101"%string; R 9 0 3 "#000000"%string];
         [R 0 2 3 "#000000"%string]]%N, lg), (2, 5)%N)).
Proof. cbv zeta. split; [cbn; lia|]. split; eexists; vm_compute; reflexivity. Qed.

(** Sub traces of different names have different colours when hashes determine names and the cached colours
    are different and taken; they also differ from the gaps when the undefined activity has a cached colour. *)
Theorem C50_distinct : forall rnd fuel lens dss short ws hs p ca p' ca' rows legend labels,
  draw_sub_diagram rnd fuel lens dss short ws hs (p, ca) = ((p', ca'), Ok ((rows, legend), labels)) ->
  distinct ca -> taken ca p ->
  (forall a b, In a (drawn_subs dss lens) -> In b (drawn_subs dss lens) -> d_hash a = d_hash b -> d_name a = d_name b) ->
  (forall a, In a (drawn_subs dss lens) -> d_name a <> undefined_activity) ->
  exists col,
    (forall a b, In a (drawn_subs dss lens) -> In b (drawn_subs dss lens) -> col (Some (d_hash a)) = col (Some (d_hash b)) -> d_name a = d_name b) /\
    (dget str_eq_dec ca undefined_activity <> None -> forall a, In a (drawn_subs dss lens) -> col (Some (d_hash a)) <> col None) /\
    forall k ds len, nth_error dss k = Some ds -> nth_error lens k = Some len ->
      exists row, nth_error rows k = Some row /\ map fc row = map col (trace_pieces ds (N.of_nat len)).
Proof.
  intros rnd fuel lens dss short ws hs p ca p' ca' rows legend labels H Hd Ht Hn Hu.
  destruct (sub_proof _ _ _ _ _ _ _ _ _ _ _ _ H) as (Hkeep & _ & Hg & _ & _ & _ & acol & Hac & Hrows).
  destruct (Hg Hd Ht) as [Hd' Ht'].
  assert (Hcol : forall a, In a (drawn_subs dss lens) -> dget str_eq_dec ca' (d_name a) = Some (acol (d_hash a))).
  { intros a Ha. destruct (Hac a Ha) as (d' & Hd1 & Hh & Hc & Hne). assert (En : d_name d' = d_name a) by (apply Hn; assumption).
    rewrite En in *. specialize (Hne (Hu a Ha)). unfold name_color in Hc. destruct (dget str_eq_dec ca' (d_name a)); congruence. }
  exists (fun o => match o with Some z => acol z | None => name_color ca undefined_activity end). split; [|split].
  - intros a b Ha Hb E. apply (Hd' _ _ _ (Hcol a Ha)). rewrite E. apply Hcol. exact Hb.
  - intros Hun a Ha E. unfold name_color in E. destruct (dget str_eq_dec ca undefined_activity) as [c|] eqn:Ec; [|congruence].
    apply (Hu a Ha). apply (Hd' _ _ _ (Hcol a Ha)). rewrite E. apply Hkeep. exact Ec.
  - intros k ds len H1 H2. destruct (Hrows k ds len H1 H2) as (row & A & _ & B & _). exists row. split; assumption.
Qed.
Print Assumptions C50_distinct.
Example C50_distinct_case : let ca := [(undefined_activity, str "#ABCDEF")] in let p := mkProv [CHex (str "#ABCDEF")] 0 in
  distinct ca /\ taken ca p /\ dget str_eq_dec ca undefined_activity <> None.
Proof.
  cbv zeta. split; [|split].
  - intros n m c. cbn [dget]. destruct (str_eq_dec n undefined_activity), (str_eq_dec m undefined_activity); congruence.
  - intros n c. cbn [dget]. destruct (str_eq_dec n undefined_activity); [|discriminate]. intros E. injection E as <-. left. reflexivity.
  - vm_compute. discriminate.
Qed.

(** Without a cached colour for the undefined activity, an activity can be painted like the gaps. *)
Theorem C50_undefined_refuted : exists rnd fuel dss lens s' r1 r2 lg lab, bytes rnd /\ dss = [[mkDto 0 1 7 (str "A")]] /\ lens = [2] /\
  draw_sub_diagram rnd fuel lens dss false 1 1 (new_provider 0, []) = (s', Ok (([[r1; r2]], lg), lab)) /\ fc r1 = fc r2.
Proof.
  exists (fun _ => 0%N), 1, [[mkDto 0 1 7 (str "A")]], [2]. do 5 eexists. split; [intros n; reflexivity|]. split; [reflexivity|]. split; [reflexivity|].
  split; [vm_compute; reflexivity|reflexivity].
Qed.
Print Assumptions C50_undefined_refuted.

(** The legend does not always show the undefined activity: a gap at the end of a trace is not entered. *)
Theorem C50_legend_refuted : exists rnd fuel dss lens ca s' rows lg lab row r, bytes rnd /\ 
  draw_sub_diagram rnd fuel lens dss false 1 1 (new_provider 0, ca) = (s', Ok ((rows, lg), lab)) /\
  In row rows /\ In r row /\ fc r = name_color ca undefined_activity /\ ~ In undefined_activity (dkeys lg) /\
  forall r', In r' (dvalues lg) -> fc r' <> fc r.
Proof.
  exists (fun _ => 0%N), 1, [[mkDto 0 1 7 (str "A")]], [2], [(undefined_activity, str "#ABCDEF")].
  do 3 eexists. exists (1, 2)%N. do 2 eexists. split; [intros n; reflexivity|]. split; [vm_compute; reflexivity|].
  split; [left; reflexivity|]. split; [right; left; reflexivity|]. split; [reflexivity|]. split.
  - vm_compute. intros [H|[]]. discriminate H.
  - intros r' [<-|[]]. vm_compute. discriminate.
Qed.
Print Assumptions C50_legend_refuted.

(** The placement of one activity, in different colours: every trace is a row at its height; when the
    instances follow each other it covers the trace exactly, each instance in a colour of its own within
    the trace, the rest black. *)
Theorem C50_placement_different : forall rnd fuel activity actss lens hs p p' rows legend labels,
  draw_placement_different rnd fuel activity actss lens hs p = (p', Ok ((rows, legend), labels)) ->
  length rows = Nat.min (length actss) (length lens) /\
  forall k acts len, nth_error actss k = Some acts -> nth_error lens k = Some len ->
    exists row cs, nth_error rows k = Some row /\ NoDup cs /\ Forall (fun r => ry r = N.of_nat k * hs /\ rh r = hs)%N row /\
      (well_placed 0 (number 0 (selected activity acts)) (N.of_nat len) -> shows_instances row (selected activity acts) cs (N.of_nat len)).
Proof. exact different_proof. Qed.
Print Assumptions C50_placement_different.
Example C50_placement_different_case :
  let A := str "A" in let R x y w s := mkRect x y w 2 (str s) in
  let acts := [(A, 1, 2); (str "B", 3, 1); (A, 4, 1)]%N in
  well_placed 0 (number 0 (selected A acts)) 6 /\
  exists p lg, draw_placement_different (fun n => N.of_nat (n / 3 + 1)) 1 A [acts] [6] 2 (new_provider 0) =
    (p, Ok (([[R 0 0 1 "#000000"%string; R 1 0 2 "#010101"%string; R 3 0 1 "#000000"%string; R 4 0 1 "#020202"%string; R 5 0 1 "#000000"%string]]%N, lg), (1, 6)%N)).
Proof. cbv zeta. split; [vm_compute; repeat split; discriminate|]. do 2 eexists. vm_compute. reflexivity. Qed.

(** In one colour per trace: different traces have different colours, all of them not taken before. *)
Theorem C50_placement_single : forall rnd fuel activity actss lens hs p p' rows legend labels,
  draw_placement_single rnd fuel activity actss lens hs p = (p', Ok ((rows, legend), labels)) ->
  length rows = Nat.min (length actss) (length lens) /\
  exists cs, NoDup cs /\ length cs = length rows /\ (forall c, In c cs -> ~ In (CHex c) (used p)) /\
  forall k acts len, nth_error actss k = Some acts -> nth_error lens k = Some len ->
    exists row c, nth_error rows k = Some row /\ nth_error cs k = Some c /\ Forall (fun r => ry r = N.of_nat k * hs /\ rh r = hs)%N row /\
      (well_placed 0 (number 0 (selected activity acts)) (N.of_nat len) ->
       shows_instances row (selected activity acts) (repeat c (length (selected activity acts))) (N.of_nat len)).
Proof. exact single_proof. Qed.
Print Assumptions C50_placement_single.
Example C50_placement_single_case :
  let A := str "A" in let R x y w s := mkRect x y w 1 (str s) in
  exists p lg, draw_placement_single (fun n => N.of_nat (n / 3 + 1)) 1 A [[(A, 0, 1); (A, 1, 1)]; [(A, 1, 1)]]%N [2; 2] 1 (new_provider 0) =
    (p, Ok (([[R 0 0 1 "#010101"%string; R 1 0 1 "#010101"%string]; [R 0 1 1 "#000000"%string; R 1 1 1 "#020202"%string]]%N, lg), (2, 2)%N)).
Proof. cbv zeta. do 2 eexists. vm_compute. reflexivity. Qed.

(** With different colours the colours are different only within a trace: the provider is reset after each
    trace, also for every other user of the global provider. *)
Theorem C50_placement_reset_refuted : exists rnd fuel activity actss lens p p' r1 r2 lg lab, bytes rnd /\
  draw_placement_different rnd fuel activity actss lens 1 p = (p', Ok (([[r1]; [r2]], lg), lab)) /\
  fc r1 = fc r2 /\ used p <> [] /\ used p' = [].
Proof.
  exists (fun _ => 1%N), 1, (str "A"), [[(str "A", 0, 1)]; [(str "A", 0, 1)]]%N, [1; 1], (mkProv [CHex (str "#ABCDEF")] 0).
  do 5 eexists. split; [intros n; reflexivity|]. split; [vm_compute; reflexivity|]. split; [reflexivity|]. split; [discriminate|reflexivity].
Qed.
Print Assumptions C50_placement_reset_refuted.

(** A log of coloured rectangles is drawn row by row, side by side, and the axes end with the number of rows and
    the widest row; an empty log cannot be drawn. *)
Theorem C50_colored : forall css ws hs, (0 < ws)%N -> (0 < hs)%N -> css <> [] ->
  exists rows legend, draw_colors_event_log css ws hs = Ok ((rows, legend), (N.of_nat (length css), widest css)) /\
    length rows = length css /\
    forall k cs, nth_error css k = Some cs -> nth_error rows k = Some (spread ws hs cs 0 (N.of_nat k * hs)).
Proof. exact colored_proof. Qed.
Print Assumptions C50_colored.
(** Its legend has every name once, cut after 50 characters, with the colour of the last rectangle of that name. *)
Theorem C50_colored_legend : forall css ws hs rows legend lab, draw_colors_event_log css ws hs = Ok ((rows, legend), lab) ->
  NoDup (dkeys legend) /\ (forall n, In n (dkeys legend) <-> exists c, In c (concat css) /\ n = firstn 50 (c_name c)) /\
  forall n r, dget str_eq_dec legend n = Some r ->
    exists pre c post, concat css = pre ++ c :: post /\ firstn 50 (c_name c) = n /\ fc r = color_hex (c_color c) /\
      forall c', In c' post -> firstn 50 (c_name c') <> n.
Proof. exact colored_legend_proof. Qed.
Print Assumptions C50_colored_legend.
Theorem C50_colored_empty : forall ws hs, (0 < hs)%N -> draw_colors_event_log [] ws hs = Err IndexError.
Proof. exact colored_empty_proof. Qed.
Print Assumptions C50_colored_empty.
Theorem C50_colored_covers : forall ws hs cs x y, side_by_side x (spread ws hs cs x y) (x + total cs * ws) /\
  map fc (spread ws hs cs x y) = map (fun c => color_hex (c_color c)) cs.
Proof.
  intros ws hs cs x y. split; [apply spread_side|]. revert x. induction cs as [|c cs IH]; intros x; [reflexivity|]. cbn [spread map fc]. rewrite IH. reflexivity.
Qed.
Print Assumptions C50_colored_covers.
Example C50_colored_case :
  let a := mkColored (255, 0, 10)%N 2 (str "a") in let b := mkColored (0, 0, 1)%N 1 (str "b") in
  exists lg, draw_colors_event_log [[a; b]; [b]] 2 3 =
    Ok (([[mkRect 0 0 4 3 (str "#FF000A"); mkRect 4 0 2 3 (str "#000001")]; [mkRect 0 3 2 3 (str "#000001")]]%N, lg), (2, 3)%N).
Proof. cbv zeta. eexists. vm_compute. reflexivity. Qed.

(** Two names with the same first 50 characters are one entry of the legend. *)
Theorem C50_legend_names_refuted : exists a b rows lg lab, c_name a <> c_name b /\ c_color a <> c_color b /\
  draw_colors_event_log [[a; b]] 1 1 = Ok ((rows, lg), lab) /\ length lg = 1.
Proof.
  exists (mkColored (1, 1, 1)%N 1 (repeat 97%N 50)), (mkColored (2, 2, 2)%N 1 (repeat 97%N 51)). do 3 eexists.
  split; [vm_compute; discriminate|]. split; [discriminate|]. split; [vm_compute; reflexivity|reflexivity].
Qed.
Print Assumptions C50_legend_names_refuted.

(** The same on a canvas, from (21, title height) on; everything fits on the canvas; the legend has every name. *)
Theorem C50_canvas : forall css titled plot_legend ws hs, css <> [] ->
  exists rows width height legend, draw_canvas css titled plot_legend ws hs = Ok (rows, width, height, legend) /\
    length rows = length css /\
    (forall k cs, nth_error css k = Some cs ->
       nth_error rows k = Some (spread ws hs cs 21 ((if titled then 20 else 10) + N.of_nat k * hs))) /\
    (forall row r, In row rows -> In r row -> rx r + rw r <= width /\ ry r + rh r <= height)%N /\
    (plot_legend = true -> NoDup (dkeys legend) /\ forall n, In n (dkeys legend) <-> exists c, In c (concat css) /\ c_name c = n).
Proof. exact canvas_proof. Qed.
Print Assumptions C50_canvas.
Example C50_canvas_case :
  let a := mkColored (255, 0, 10)%N 2 (str "a") in let b := mkColored (0, 0, 1)%N 1 (str "b") in
  draw_canvas [[a; b]; [b]] true true 2 3 =
    Ok ([[mkRect 21 20 4 3 (str "#FF000A"); mkRect 25 20 2 3 (str "#000001")]; [mkRect 21 23 2 3 (str "#000001")]],
        42, 87, [(str "a", str "#FF000A"); (str "b", str "#000001")])%N /\ draw_canvas [] true true 2 3 = Err ValueError.
Proof. split; vm_compute; reflexivity. Qed.
