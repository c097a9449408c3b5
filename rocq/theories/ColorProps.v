(** Property C41: colours are unique between resets and stable per name. *)
From Verif Require Import Py PyFacts LogModel ColorModel ColorSpec ColorProofs ColorDrawProofs.

(** A colour is # and six hexadecimal digits from which the three bytes can be read back. *)
Theorem C41_hex : forall r g b, (r < 256)%N -> (g < 256)%N -> (b < 256)%N ->
  is_color (to_hex r g b) /\ components (to_hex r g b) = Some (r, g, b).
Proof. exact hex_proof. Qed.
Print Assumptions C41_hex.
Example C41_hex_case : to_hex 255 10 0 = str "#FF0A00" /\ components (str "#FF0A00") = Some (255, 10, 0)%N.
Proof. split; reflexivity. Qed.

(** Whatever the random source and whatever was called before: the same colour is returned twice only
    with a reset in between. *)
Theorem C41_unique : forall rnd fuel os p i j c, i < j ->
  nth_error (snd (do_ops rnd fuel os p)) i = Some (Some (Ok c)) ->
  nth_error (snd (do_ops rnd fuel os p)) j = Some (Some (Ok c)) ->
  exists k, i < k < j /\ nth_error os k = Some Reset.
Proof. exact unique_proof. Qed.
Print Assumptions C41_unique.
Example C41_unique_case : let rnd := fun n => N.of_nat (n / 6) in
  snd (do_ops rnd 5 [Next; Next; Reserve; Reset; Next] (new_provider 0)) =
    [Some (Ok (str "#000000")); Some (Ok (str "#010101")); None; None; Some (Ok (str "#010101"))].
Proof. vm_compute. reflexivity. Qed.

(** next returns the first drawn colour that is not taken, and takes it. *)
Theorem C41_next : forall rnd fuel p k c, N.of_nat (length (used p)) <> (256 ^ 3)%N -> k < fuel ->
  components c = Some (rnd (drawn p + 3 * k), rnd (drawn p + 3 * k + 1), rnd (drawn p + 3 * k + 2)) -> is_color c -> bytes rnd ->
  ~ In (CHex c) (used p) ->
  (forall j x, j < k -> is_color x ->
     components x = Some (rnd (drawn p + 3 * j), rnd (drawn p + 3 * j + 1), rnd (drawn p + 3 * j + 2)) -> In (CHex x) (used p)) ->
  next_color rnd fuel p = (mkProv (CHex c :: used p) (drawn p + 3 * (k + 1)), Ok c).
Proof. exact next_exact_proof. Qed.
Print Assumptions C41_next.
Example C41_next_case : let rnd := fun n => if n <? 3 then 0%N else 255%N in
  next_color rnd 2 (mkProv [CHex (str "#000000")] 0) = (mkProv [CHex (str "#FFFFFF"); CHex (str "#000000")] 6, Ok (str "#FFFFFF")).
Proof. vm_compute. reflexivity. Qed.

(** A reset frees all colours but does not start the random source again: the next colour is the next one drawn. *)
Theorem C41_reset_goes_on : forall rnd fuel p, bytes rnd ->
  exists c, next_color rnd (S fuel) (fst (do_op rnd (S fuel) Reset p)) = (mkProv [CHex c] (drawn p + 3), Ok c) /\ is_color c /\
    components c = Some (rnd (drawn p), rnd (drawn p + 1), rnd (drawn p + 2)).
Proof.
  intros rnd fuel p Hb. exists (to_hex (rnd (drawn p)) (rnd (drawn p + 1)) (rnd (drawn p + 2))). split; [reflexivity|].
  apply hex_proof; apply Hb.
Qed.
Print Assumptions C41_reset_goes_on.

(** With a source in which every colour keeps coming, a new provider hands out all 256^3 colours, and
    only then raises OverflowError. *)
Theorem C41_all : forall rnd start n, fair rnd -> (N.of_nat n <= 256 ^ 3)%N ->
  exists f0 cs p, length cs = n /\ NoDup cs /\ forall f, f0 <= f ->
    do_ops rnd f (repeat Next n) (new_provider start) = (p, map (fun c => Some (Ok c)) cs) /\
    (N.of_nat n = (256 ^ 3)%N -> snd (next_color rnd f p) = Err OverflowError).
Proof. exact all_proof. Qed.
Print Assumptions C41_all.
Example C41_all_case : fair round_robin /\ bytes round_robin.
Proof. split; [exact round_robin_fair|exact round_robin_bytes]. Qed.

(** ... but after draw_placements_of_events has put a tuple among the colours, OverflowError comes
    while a colour is still free. *)
Theorem C41_all_after_placements_refuted : exists rnd n fuel c, bytes rnd /\ fair rnd /\ is_color c /\
  let outs := snd (do_ops rnd fuel (Reserve :: repeat Next n) (new_provider 0)) in
  nth_error outs n = Some (Some (Err OverflowError)) /\ ~ In (Some (Ok c)) outs.
Proof. exact reserve_proof. Qed.
Print Assumptions C41_all_after_placements_refuted.

(** A diagram: every event is a rectangle at its place, painted by its name; the colour of a name is the
    cached one if there is one; cached_colors gets the names of the log and nothing else changes; the
    legend shows every name once; the axes end with the number of traces and the longest trace. *)
Theorem C41_diagram : forall rnd fuel log ws hs p ca nss p' ca' r, names_of log nss ->
  draw_traces_diversity_diagram rnd fuel log ws hs (p, ca) = ((p', ca'), r) ->
  (forall n c, dget str_eq_dec ca n = Some c -> dget str_eq_dec ca' n = Some c) /\
  (forall n, ~ In n (concat nss) -> dget str_eq_dec ca' n = dget str_eq_dec ca n) /\
  match r with
  | Ok ((rows, legend), labels) => labels = (N.of_nat (length nss), N.of_nat (longest nss)) /\
      exists col, (forall n, In n (concat nss) -> dget str_eq_dec ca' n = Some (col n)) /\
        paints col ws hs nss rows /\ legend_of col (concat nss) legend
  | Err e => e = Diverges \/ (e = OverflowError /\ N.of_nat (length (used p')) = (256 ^ 3)%N) \/ bad_axes nss ws hs e
  end.
Proof. exact diagram_proof. Qed.
Print Assumptions C41_diagram.

(** It is drawn when there are colours enough for its names. *)
Theorem C41_diagram_drawn : forall rnd log ws hs p ca nss, fair rnd -> names_of log nss -> nss <> [] -> ws <> 0%N -> hs <> 0%N ->
  (N.of_nat (length (used p) + length (firsts (concat nss))) <= 256 ^ 3)%N ->
  exists f0 s' d, forall f, f0 <= f -> draw_traces_diversity_diagram rnd f log ws hs (p, ca) = (s', Ok d).
Proof. exact enough_proof. Qed.
Print Assumptions C41_diagram_drawn.

(** Different names get different colours, if the cached colours are different and taken; this stays so. *)
Theorem C41_distinct : forall rnd fuel log ws hs p ca nss p' ca' r, names_of log nss -> distinct ca -> taken ca p ->
  draw_traces_diversity_diagram rnd fuel log ws hs (p, ca) = ((p', ca'), r) -> distinct ca' /\ taken ca' p'.
Proof. exact distinct_proof. Qed.
Print Assumptions C41_distinct.

(** Any number of diagrams with one provider and one cached_colors, no reset in between: one colour per
    name through all of them, different for different names; unselected names of placements are black. *)
Theorem C41_session : forall rnd fuel os p ca, distinct ca -> taken ca p -> Forall (fun o => exists nss, names_of (step_log o) nss) os ->
  exists col shown, (forall n m, In n shown -> In m shown -> col n = col m -> n = m) /\
    (forall n c, dget str_eq_dec ca n = Some c -> In n shown /\ col n = c) /\
    forall i o d nss, nth_error os i = Some o -> names_of (step_log o) nss -> nth_error (session rnd fuel os (p, ca)) i = Some (Ok d) ->
      (forall n, In n (concat nss) -> step_shows o n = true -> In n shown) /\
      paints (step_color o col) (fst (step_scales o)) (snd (step_scales o)) nss (fst (fst d)).
Proof. exact session_proof. Qed.
Print Assumptions C41_session.

Definition ev (n : string) : event := [(concept_name, VStr (str n))].
Definition log_of (tss : list (list string)) : eventlog := log_of_traces (map (fun ns => trace_of_events (map ev ns)) tss).
Lemma names_log_of tss : names_of (log_of tss) (map (map str) tss).
Proof.
  unfold names_of, log_of. cbn [l_traces log_of_traces]. induction tss as [|ns tss IH]; cbn [map]; constructor; [|exact IH].
  cbn [t_events trace_of_events]. induction ns as [|n ns IH2]; cbn [map]; constructor; [reflexivity|exact IH2].
Qed.
Definition counting (n : nat) : N := N.of_nat (n / 3).

Example C41_session_case :
  let a := str "a" in let b := str "b" in let c := str "c" in
  let R x y w h s := mkRect x y w h (str s) in
  session counting 3 [Diversity (log_of [["a"; "b"; "a"]; ["b"]]%string) 2 1; Placements (fun n => str_eqb n c) (log_of [["c"; "a"]]%string) 1]
    (new_provider 0, []) =
  [Ok (([[R 0 0 2 1 "#000000"%string; R 2 0 2 1 "#010101"%string; R 4 0 2 1 "#000000"%string]; [R 0 1 2 1 "#010101"%string]]%N,
        [(a, R 4 0 2 1 "#000000"%string); (b, R 0 1 2 1 "#010101"%string)]%N), (2, 3)%N);
   Ok (([[R 0 0 1 1 "#020202"%string; R 1 0 1 1 "#000000"%string]]%N, [(c, R 0 0 1 1 "#020202"%string); (a, R 1 0 1 1 "#000000"%string)]%N), (1, 2)%N)].
Proof. vm_compute. reflexivity. Qed.

(** With a reset in between (Pipeline.execute resets the provider, cached_colors stays in the context),
    two names in one diagram can have the same colour. *)
Theorem C41_reset_refuted : exists rnd fuel log1 log2 p1 ca1 s2 r1 r2 lg d1 lab, bytes rnd /\
  draw_traces_diversity_diagram rnd fuel log1 1 1 (new_provider 0, []) = ((p1, ca1), Ok d1) /\
  draw_traces_diversity_diagram rnd fuel log2 1 1 (reset_provider p1, ca1) = (s2, Ok (([[r1; r2]], lg), lab)) /\
  names_of log2 [[str "a"; str "b"]] /\ fc r1 = fc r2.
Proof.
  exists (fun _ => 0%N), 1, (log_of [["a"]]%string), (log_of [["a"; "b"]]%string).
  do 8 eexists. split; [intros n; reflexivity|]. split; [vm_compute; reflexivity|]. split; [vm_compute; reflexivity|].
  split; [apply (names_log_of [["a"; "b"]]%string)|reflexivity].
Qed.
Print Assumptions C41_reset_refuted.

(** Placements: selected names have their own colours, the others are black. *)
Theorem C41_placements : forall rnd fuel q log hs p ca nss p' ca' r, names_of log nss ->
  draw_placements_of_events rnd fuel q log hs (p, ca) = ((p', ca'), r) ->
  (forall n, (~ In n (concat nss) \/ q n = false) -> dget str_eq_dec ca' n = dget str_eq_dec ca n) /\
  (distinct ca -> taken ca p -> distinct ca' /\ taken ca' p') /\
  match r with
  | Ok ((rows, legend), labels) => labels = (N.of_nat (length nss), N.of_nat (longest nss)) /\
      exists col, (forall n, In n (concat nss) -> if q n then dget str_eq_dec ca' n = Some (col n) else col n = str "#000000") /\
        (In (CHex (str "#000000")) (used p) -> (forall n, dget str_eq_dec ca n <> Some (str "#000000")) ->
           forall n, In n (concat nss) -> q n = true -> col n <> str "#000000") /\
        paints col 1 hs nss rows /\ legend_of col (concat nss) legend
  | Err e => e = Diverges \/ (e = OverflowError /\ N.of_nat (length (used p')) = (256 ^ 3)%N) \/ bad_axes nss 1 hs e
  end.
Proof.
  intros rnd fuel q log hs p ca nss p' ca' r Hn H. destruct (placement_proof _ _ _ _ _ _ _ _ _ _ _ Hn H) as (Hg & Hk & Hr).
  split; [exact Hk|]. split; [intros Hd Ht; exact (grows_good _ _ Hg Hd Ht)|].
  destruct r as [[[rs lg] lab]|e]; [|exact Hr]. destruct Hr as (Hl & col & Hc & Hp & Hlg). split; [exact Hl|]. exists col.
  split; [exact Hc|]. split; [|split; assumption].
  intros Hb Hca n Hin Hq E. specialize (Hc n Hin). rewrite Hq, E in Hc. destruct Hg as (_ & Hext & Hfr & _). cbn [fst snd] in *.
  destruct (dget str_eq_dec ca n) as [c|] eqn:En.
  - rewrite (Hext _ _ En) in Hc. injection Hc as ->. exact (Hca n En).
  - destruct (Hfr _ _ En Hc) as [Hni _]. contradiction.
Qed.
Print Assumptions C41_placements.

(** The reservation of black does not work: it adds a tuple, colours are strings; a selected event can be
    painted like the unselected ones. *)
Theorem C41_black_refuted : exists rnd fuel q log s' r1 r2 lg lab, bytes rnd /\
  draw_placements_of_events rnd fuel q log 1 (new_provider 0, []) = (s', Ok (([[r1; r2]], lg), lab)) /\
  names_of log [[str "a"; str "b"]] /\ q (str "a") = true /\ q (str "b") = false /\ fc r1 = fc r2.
Proof.
  exists (fun _ => 0%N), 1, (str_eqb (str "a")), (log_of [["a"; "b"]]%string).
  do 5 eexists. split; [intros n; reflexivity|]. split; [vm_compute; reflexivity|].
  split; [apply (names_log_of [["a"; "b"]]%string)|]. repeat split; reflexivity.
Qed.
Print Assumptions C41_black_refuted.

(** The entropy histogram: one bar per event name, side by side, of that height, all colours different. *)
Theorem C41_histogram : forall rnd fuel F (es : list (pystr * F)) x p p' r, histogram_bars rnd fuel es x p = (p', r) ->
  incl (used p) (used p') /\
  match r with
  | Ok bs => map fst bs = map fst es /\ NoDup (map (fun b => snd (snd b)) bs) /\
      (forall b, In b bs -> ~ In (CHex (snd (snd b))) (used p) /\ In (CHex (snd (snd b))) (used p')) /\
      forall i n e, nth_error es i = Some (n, e) -> exists c, nth_error bs i = Some (n, (x + N.of_nat i, e, c))%N
  | Err e => e = Diverges \/ (e = OverflowError /\ N.of_nat (length (used p')) = (256 ^ 3)%N)
  end.
Proof. intros rnd fuel F es. exact (histogram_proof rnd fuel es). Qed.
Print Assumptions C41_histogram.
Example C41_histogram_case : snd (histogram_bars counting 1 [(str "a", 7); (str "b", 3)] 0 (new_provider 0)) =
  Ok [(str "a", (0%N, 7, str "#000000")); (str "b", (1%N, 3, str "#010101"))].
Proof. vm_compute. reflexivity. Qed.
