(** Proofs for C50: placements of one activity, coloured logs, the canvas. *)
From Verif Require Import Py PyFacts LogModel ActLogModel ColorModel ColorSpec ColorProofs ColorDrawProofs DrawModel DrawSpec DrawProofs.

Section Place.
  Context {S : Type}.
  Variable next1 : st S pystr.
  Variable reset1 : st S unit.
  Variable activity : pystr.
  Variable h : N.

  (** n colours. *)
  Fixpoint ncolors (n : nat) : st S (list pystr) :=
    match n with 0 => sret [] | Datatypes.S m => sbind next1 (fun c => sbind (ncolors m) (fun cs => sret (c :: cs))) end.

  Fixpoint pbars (sel : list (pystr * N * N)) (cs : list pystr) (len last x y : N) : list rect :=
    match sel with
    | [] => gap 1 h false (str "#000000") last len x y
    | (nm, s, ln) :: r =>
        let x' := gapx 1 false last s x in
        gap 1 h false (str "#000000") last s x y ++ mkRect x' y ln h (hd [] cs)
        :: pbars r (tl cs) len ((if (last <? s)%N then s else last) + ln) (x' + ln) y
    end.

  Lemma place_acts_pure acts : forall len last x y R s, exists Rf,
    place_acts next1 activity h acts len last x y R s =
    let '(s', r) := ncolors (length (selected activity acts)) s in
    (s', match r with Ok cs => Ok (pbars (selected activity acts) cs len last x y, Rf cs) | Err e => Err e end).
  Proof.
    induction acts as [|[[nm s0] ln] acts IH]; intros len last x y R s.
    - cbn [place_acts selected filter length ncolors pbars]. unfold gap, sub_width.
      destruct (last <? len)%N.
      + eexists (fun _ => _). unfold sret. rewrite N.mul_1_l. reflexivity.
      + exists (fun _ => R). reflexivity.
    - unfold selected. cbn [place_acts filter fst]. destruct (str_eqb nm activity) eqn:En; [|apply IH].
      fold (selected activity acts). cbn [length ncolors].
      assert (Hg : exists Rg, (if (last <? s0)%N
          then ([mkRect x y ((s0 - last) * 1) h (to_hex 0 0 0)], s0, (x + (s0 - last) * 1)%N,
                dset str_eq_dec R undefined_activity (mkRect x y ((s0 - last) * 1) h (to_hex 0 0 0)))
          else ([], last, x, R)) = (gap 1 h false (str "#000000") last s0 x y, if (last <? s0)%N then s0 else last, gapx 1 false last s0 x, Rg)).
      { unfold gap, gapx, sub_width. destruct (last <? s0)%N; eexists; [|reflexivity]. rewrite N.mul_1_l, N.mul_1_r, to_hex_black. reflexivity. }
      destruct Hg as (Rg & Eg). cbv zeta. rewrite Eg. unfold sbind.
      destruct (next1 s) as [s1 [c|e]].
      2:{ exists (fun _ => R). reflexivity. }
      match goal with |- context[place_acts next1 activity h acts len ?l ?x1 y ?R1 s1] => destruct (IH len l x1 y R1 s1) as (Rf & E) end.
      exists (fun cs => Rf (tl cs)). rewrite E. destruct (ncolors (length (selected activity acts)) s1) as [s2 [cs|e]]; [|reflexivity].
      unfold sret. cbn [pbars hd tl fst snd]. rewrite N.mul_1_r. reflexivity.
  Qed.

  (** Runs of the whole diagram: the colours of the traces. *)
  Fixpoint tcolors (ns : list nat) : st S (list (list pystr)) :=
    match ns with
    | [] => sret []
    | n :: r => sbind (ncolors n) (fun cs => sbind reset1 (fun _ => sbind (tcolors r) (fun css => sret (cs :: css))))
    end.
  Fixpoint prows (actss : list (list (pystr * N * N))) (lens : list nat) (css : list (list pystr)) (y : N) : list (list rect) :=
    match actss, lens, css with
    | acts :: actss', len :: lens', cs :: css' => pbars (selected activity acts) cs (N.of_nat len) 0 0 y :: prows actss' lens' css' (y + h)%N
    | _, _, _ => []
    end.
  Definition counts (actss : list (list (pystr * N * N))) (lens : list nat) : list nat :=
    map (fun al => length (selected activity (fst al))) (combine actss lens).
  Lemma place_traces_pure actss : forall lens y R s, exists Rf,
    place_traces next1 reset1 activity h actss lens y R s =
    let '(s', r) := tcolors (counts actss lens) s in
    (s', match r with Ok css => Ok (prows actss lens css y, Rf css) | Err e => Err e end).
  Proof.
    induction actss as [|acts actss IH]; intros lens y R s; [exists (fun _ => R); reflexivity|].
    destruct lens as [|len lens]; [exists (fun _ => R); reflexivity|].
    cbn [place_traces counts combine map fst tcolors]. fold (counts actss lens). unfold sbind.
    destruct (place_acts_pure acts (N.of_nat len) 0 0 y R s) as (R1 & E1). rewrite E1.
    destruct (ncolors (length (selected activity acts)) s) as [s1 [cs|e]]; [|exists (fun _ => R); reflexivity].
    destruct (reset1 s1) as [s2 [u|e]]; [|exists (fun _ => R); reflexivity].
    cbn [fst snd].
    destruct (IH lens (y + h)%N (R1 cs) s2) as (R2 & E2). exists (fun css => R2 (tl css)). rewrite E2.
    destruct (tcolors (counts actss lens) s2) as [s3 [css|e]]; reflexivity.
  Qed.
  Lemma ncolors_length n : forall s s' cs, ncolors n s = (s', Ok cs) -> length cs = n.
  Proof.
    induction n as [|n IH]; intros s s' cs H; cbn [ncolors] in H; [injection H as <- <-; reflexivity|].
    unfold sbind, sret in H. destruct (next1 s) as [s1 [c|e]]; [|discriminate]. destruct (ncolors n s1) as [s2 [cs'|e]] eqn:E; [|discriminate].
    injection H as <- <-. cbn. f_equal. apply IH with (1 := E).
  Qed.
  Lemma tcolors_length ns : forall s s' css, tcolors ns s = (s', Ok css) -> map (@length pystr) css = ns.
  Proof.
    induction ns as [|n ns IH]; intros s s' css H; cbn [tcolors] in H; [injection H as <- <-; reflexivity|].
    unfold sbind, sret in H. destruct (ncolors n s) as [s1 [cs|e]] eqn:E1; [|discriminate]. destruct (reset1 s1) as [s2 [u|e]]; [|discriminate].
    destruct (tcolors ns s2) as [s3 [css'|e]] eqn:E; [|discriminate]. injection H as <- <-. cbn. f_equal; [apply ncolors_length with (1 := E1)|apply IH with (1 := E)].
  Qed.
  Lemma prows_nth actss : forall lens css y k acts len, map (@length pystr) css = counts actss lens ->
    nth_error actss k = Some acts -> nth_error lens k = Some len ->
    exists cs, nth_error css k = Some cs /\ length cs = length (selected activity acts) /\
      nth_error (prows actss lens css y) k = Some (pbars (selected activity acts) cs (N.of_nat len) 0 0 (y + N.of_nat k * h)).
  Proof.
    induction actss as [|a actss IH]; intros [|l lens] css y [|k] acts len Hl H1 H2; try discriminate;
      cbn [counts combine map fst] in Hl; destruct css as [|cs css]; try discriminate; cbn [map] in Hl; injection Hl as Hl0 Hl.
    - cbn [nth_error] in *. injection H1 as ->. injection H2 as ->. exists cs. split; [reflexivity|]. split; [exact Hl0|]. cbn [prows nth_error]. do 2 f_equal. lia.
    - cbn [nth_error] in *. destruct (IH lens css (y + h)%N k acts len Hl H1 H2) as (cs' & A & B & C). exists cs'.
      split; [exact A|]. split; [exact B|]. cbn [prows nth_error]. rewrite C. do 2 f_equal. lia.
  Qed.
  Lemma prows_length actss : forall lens css y, map (@length pystr) css = counts actss lens ->
    length (prows actss lens css y) = Nat.min (length actss) (length lens).
  Proof.
    induction actss as [|a actss IH]; intros [|l lens] css y Hl; cbn [prows length Nat.min]; auto.
    cbn [counts combine map fst] in Hl. destruct css as [|cs css]; [discriminate|]. cbn [map] in Hl. injection Hl as _ Hl. cbn [length]. f_equal. apply IH. exact Hl.
  Qed.
  Lemma pbars_y sel : forall cs len last x y, Forall (fun r => ry r = y /\ rh r = h) (pbars sel cs len last x y).
  Proof.
    assert (Hg : forall uc last pos x y, Forall (fun r => ry r = y /\ rh r = h) (gap 1 h false uc last pos x y)).
    { intros. unfold gap. destruct (_ <? _)%N; repeat constructor. }
    induction sel as [|[[nm s] ln] sel IH]; intros cs len last x y; cbn [pbars]; [apply Hg|]. apply Forall_app. split; [apply Hg|].
    constructor; [split; reflexivity|apply IH].
  Qed.

  (** Well placed instances are bars. *)
  Definition index (b : Z) (cs : list pystr) : dict Z pystr := combine (map (fun k => (b + Z.of_nat k)%Z) (seq 0 (length cs))) cs.
  Lemma index_cons b c cs : index b (c :: cs) = (b, c) :: index (b + 1)%Z cs.
  Proof.
    unfold index. cbn [length seq map combine]. rewrite Z.add_0_r. f_equal. rewrite <- seq_shift, map_map. f_equal. apply map_ext. intros k. lia.
  Qed.
  Lemma index_get cs : forall b k, k < length cs -> getz (index b cs) (b + Z.of_nat k)%Z = nth_error cs k.
  Proof.
    induction cs as [|c cs IH]; intros b k Hk; [cbn in Hk; lia|]. rewrite index_cons. cbn [dget].
    destruct k as [|k]; [rewrite Z.add_0_r; destruct (Z.eq_dec b b); [reflexivity|congruence]|].
    destruct (Z.eq_dec (b + Z.of_nat (Datatypes.S k))%Z b); [lia|]. cbn [length nth_error] in *.
    rewrite <- (IH (b + 1)%Z k) by lia. f_equal. lia.
  Qed.
  Lemma number_hash sel : forall b d, In d (number b sel) -> (b <= d_hash d)%Z.
  Proof.
    induction sel as [|[[nm s] ln] sel IH]; intros b d H; [destruct H|]. destruct H as [<-|H]; [cbn; lia|]. specialize (IH _ _ H). lia.
  Qed.
  Lemma bars_skip ac b c ds : (forall d, In d ds -> (b < d_hash d)%Z) -> forall len last x y,
    bars 1 h false ((b, c) :: ac) (str "#000000") ds len last x y = bars 1 h false ac (str "#000000") ds len last x y.
  Proof.
    induction ds as [|d ds IH]; intros Hd len last x y; [reflexivity|]. cbn [bars].
    rewrite IH by (intros; apply Hd; right; assumption). do 2 f_equal. f_equal. unfold hcolor. cbn [dget].
    destruct (Z.eq_dec (d_hash d) b) as [E|]; [|reflexivity]. specialize (Hd d (or_introl eq_refl)). lia.
  Qed.
  Lemma pbars_bars sel : forall b cs len last x y, length cs = length sel -> well_placed last (number b sel) len ->
    pbars sel cs len last x y = bars 1 h false (index b cs) (str "#000000") (number b sel) len last x y.
  Proof.
    induction sel as [|[[nm s] ln] sel IH]; intros b cs len last x y Hl Hw; [reflexivity|].
    destruct cs as [|c cs]; [discriminate|]. cbn [length] in Hl. injection Hl as Hl. cbn [number well_placed d_start d_len] in Hw. destruct Hw as [Hs Hw].
    cbn [pbars number bars d_start d_len d_hash hd tl]. rewrite index_cons.
    assert (Ec : hcolor ((b, c) :: index (b + 1)%Z cs) b = c) by (unfold hcolor; cbn [dget]; destruct (Z.eq_dec b b); congruence).
    rewrite Ec. unfold sub_width. rewrite !N.mul_1_l.
    assert (El : (if (last <? s)%N then s else last) = s) by (destruct (N.ltb_spec last s); lia).
    rewrite El. rewrite (IH (b + 1)%Z) by assumption. rewrite bars_skip; [reflexivity|].
    intros d Hd. apply number_hash in Hd. lia.
  Qed.
  Lemma number_nth sel : forall b j nm s ln, nth_error sel j = Some (nm, s, ln) -> nth_error (number b sel) j = Some (mkDto s ln (b + Z.of_nat j)%Z nm).
  Proof.
    induction sel as [|[[nm0 s0] ln0] sel IH]; intros b [|j] nm s ln H; try discriminate; cbn [nth_error number] in *.
    - injection H as -> -> ->. do 2 f_equal. lia.
    - rewrite (IH _ _ _ _ _ H). do 2 f_equal. lia.
  Qed.
  Lemma number_In sel : forall b d, In d (number b sel) -> exists nm, In (nm, d_start d, d_len d) sel.
  Proof.
    induction sel as [|[[nm s] ln] sel IH]; intros b d H; [destruct H|]. destruct H as [<-|H]; [exists nm; left; reflexivity|].
    destruct (IH _ _ H) as (nm' & Hin). exists nm'. right. exact Hin.
  Qed.
  Lemma pbars_shows sel cs len y : length cs = length sel -> well_placed 0 (number 0 sel) len ->
    shows_instances (pbars sel cs len 0 0 y) sel cs len.
  Proof.
    intros Hl Hw. unfold shows_instances. rewrite (pbars_bars sel 0 cs len 0 0 y Hl Hw).
    pose proof (full_side 1 h (index 0 cs) (str "#000000") (number 0 sel) len 0 y Hw) as X. rewrite N.mul_0_l, N.mul_1_r in X.
    split; [exact X|]. split; [exact Hl|]. intros i Hi.
    pose proof (full_painted 1 h (index 0 cs) (str "#000000") (number 0 sel) len 0 y i Hw ltac:(lia)) as Y. rewrite N.mul_0_l in Y. destruct Y as [Y1 Y2].
    split.
    - intros j nm s ln Hj Hi'. pose proof (number_nth sel 0 j nm s ln Hj) as Hn.
      assert (Hjl : j < length cs) by (rewrite Hl; apply nth_error_Some; congruence).
      destruct (nth_error cs j) as [c|] eqn:Ec; [|apply nth_error_None in Ec; lia]. exists c. split; [reflexivity|].
      specialize (Y1 _ (nth_error_In _ _ Hn) Hi'). cbn [d_hash] in Y1. unfold hcolor in Y1. rewrite index_get, Ec in Y1 by exact Hjl. exact Y1.
    - intros Hno. apply Y2. intros d Hd Hc. destruct (number_In _ _ _ Hd) as (nm & Hin). apply (Hno _ _ _ Hin). exact Hc.
  Qed.
End Place.

(** *** Different colours *)
Lemma ncolors_next rnd fuel n : forall p p' cs, ncolors (next_color rnd fuel) n p = (p', Ok cs) ->
  NoDup cs /\ forall c, In c cs -> ~ In (CHex c) (used p).
Proof.
  induction n as [|n IH]; intros p p' cs H; cbn [ncolors] in H; [injection H as <- <-; split; [constructor|intros c []]|].
  unfold sbind, sret in H. destruct (next_color rnd fuel p) as [p1 [c|e]] eqn:E1; [|discriminate].
  destruct (ncolors (next_color rnd fuel) n p1) as [p2 [cs'|e]] eqn:E2; [|discriminate]. injection H as <- <-.
  destruct (next_cases _ _ _ _ _ E1) as [Hni Hu]. destruct (IH _ _ _ E2) as [A B]. split.
  - constructor; [|exact A]. intros Hin. apply (B c Hin). rewrite Hu. left. reflexivity.
  - intros x [<-|Hx]; [exact Hni|]. intros Hin. apply (B x Hx). rewrite Hu. right. exact Hin.
Qed.
Lemma tcolors_next rnd fuel ns : forall p p' css, tcolors (next_color rnd fuel) (fun p => (reset_provider p, Ok tt)) ns p = (p', Ok css) ->
  Forall (@NoDup pystr) css.
Proof.
  induction ns as [|n ns IH]; intros p p' css H; cbn [tcolors] in H; [injection H as <- <-; constructor|].
  unfold sbind, sret in H. destruct (ncolors (next_color rnd fuel) n p) as [p1 [cs|e]] eqn:E1; [|discriminate].
  destruct (tcolors (next_color rnd fuel) (fun p => (reset_provider p, Ok tt)) ns (reset_provider p1)) as [p2 [css'|e]] eqn:E2; [|discriminate].
  injection H as <- <-. constructor; [apply (ncolors_next _ _ _ _ _ _ E1)|apply (IH _ _ _ E2)].
Qed.

Lemma internal_ok {S A} lens (f : st S A) ws hs s s' d a : draw_internal lens f ws hs s = (s', Ok (d, a)) ->
  f s = (s', Ok d) /\ a = (N.of_nat (length lens), N.of_nat (fold_right Nat.max 0 lens)).
Proof.
  unfold draw_internal, sbind. destruct (f s) as [s1 [d1|e]]; [|discriminate].
  pose proof (log_axes_cases lens ws hs) as H. destruct (log_axes lens ws hs) as [a1|e]; [|discriminate].
  intros E. injection E as <- <- <-. auto.
Qed.

Lemma different_proof rnd fuel activity actss lens hs p p' rows legend labels :
  draw_placement_different rnd fuel activity actss lens hs p = (p', Ok ((rows, legend), labels)) ->
  length rows = Nat.min (length actss) (length lens) /\
  forall k acts len, nth_error actss k = Some acts -> nth_error lens k = Some len ->
    exists row cs, nth_error rows k = Some row /\ NoDup cs /\ Forall (fun r => ry r = N.of_nat k * hs /\ rh r = hs)%N row /\
      (well_placed 0 (number 0 (selected activity acts)) (N.of_nat len) -> shows_instances row (selected activity acts) cs (N.of_nat len)).
Proof.
  unfold draw_placement_different. rewrite N.mul_1_l. intros H. apply internal_ok in H. destruct H as [H _].
  destruct (place_traces_pure (next_color rnd fuel) (fun p => (reset_provider p, Ok tt)) activity hs actss lens 0 [] p) as (Rf & E).
  rewrite E in H. clear E.
  destruct (tcolors (next_color rnd fuel) (fun p => (reset_provider p, Ok tt)) (counts activity actss lens) p) as [p1 [css|e]] eqn:Et; [|discriminate].
  injection H as <- <- _. pose proof (tcolors_length _ _ _ _ _ _ Et) as Hl. split; [apply prows_length; exact Hl|].
  intros k acts len H1 H2. destruct (prows_nth activity hs actss lens css 0 k acts len Hl H1 H2) as (cs & A & B & C).
  rewrite N.add_0_l in C. eexists _, cs. split; [exact C|]. split; [|split].
  - pose proof (tcolors_next _ _ _ _ _ _ Et) as Hnd. rewrite Forall_forall in Hnd. apply Hnd. apply nth_error_In with k. exact A.
  - apply pbars_y.
  - intros Hw. apply pbars_shows; assumption.
Qed.

(** *** One colour per trace *)
Lemma ncolors_single n : forall s s' cs, ncolors (S := provider * pystr) single_next n s = (s', Ok cs) -> s' = s /\ cs = repeat (snd s) n.
Proof.
  induction n as [|n IH]; intros s s' cs H; cbn [ncolors] in H; [injection H as <- <-; auto|].
  unfold sbind, sret, single_next in H. destruct (ncolors (fun s0 : provider * pystr => (s0, Ok (snd s0))) n s) as [s2 [cs'|e]] eqn:E; [|discriminate].
  injection H as <- <-. fold (@single_next) in E. destruct (IH s s2 cs') as [-> ->]; [exact E|]. split; reflexivity.
Qed.
Lemma tcolors_single rnd fuel ns : forall p c s' css, In (CHex c) (used p) ->
  tcolors (S := provider * pystr) single_next (single_reset rnd fuel) ns (p, c) = (s', Ok css) ->
  exists cs, NoDup cs /\ (forall x, In x cs -> x = c \/ ~ In (CHex x) (used p)) /\ css = map (fun cn => repeat (fst cn) (snd cn)) (combine cs ns) /\ length cs = length ns.
Proof.
  induction ns as [|n ns IH]; intros p c s' css Hin H; cbn [tcolors] in H.
  - injection H as <- <-. exists []. split; [constructor|]. split; [intros x []|]. split; reflexivity.
  - unfold sbind, sret in H. destruct (ncolors single_next n (p, c)) as [s1 [cs0|e]] eqn:E1; [|discriminate].
    destruct (ncolors_single _ _ _ _ E1) as [-> ->]. unfold single_reset in H. cbn [fst snd] in H.
    destruct (next_color rnd fuel p) as [p1 [c1|e]] eqn:En; [|discriminate]. fold (single_reset rnd fuel) in H.
    destruct (next_cases _ _ _ _ _ En) as [Hni Hu].
    destruct (tcolors single_next (single_reset rnd fuel) ns (p1, c1)) as [s2 [css'|e]] eqn:E2; [|discriminate].
    injection H as <- <-. destruct (IH p1 c1 s2 css') as (cs & A & B & C & D); [rewrite Hu; left; reflexivity|exact E2|].
    exists (c :: cs). split; [|split; [|split]].
    + constructor; [|exact A]. intros Hc. destruct (B c Hc) as [->|Hn]; [contradiction|]. apply Hn. rewrite Hu. right. exact Hin.
    + intros x [<-|Hx]; [auto|]. right. destruct (B x Hx) as [->|Hn]; [exact Hni|]. intros Hx'. apply Hn. rewrite Hu. right. exact Hx'.
    + rewrite C. reflexivity.
    + cbn. f_equal. exact D.
Qed.

Lemma single_proof rnd fuel activity actss lens hs p p' rows legend labels :
  draw_placement_single rnd fuel activity actss lens hs p = (p', Ok ((rows, legend), labels)) ->
  length rows = Nat.min (length actss) (length lens) /\
  exists cs, NoDup cs /\ length cs = length rows /\ (forall c, In c cs -> ~ In (CHex c) (used p)) /\
  forall k acts len, nth_error actss k = Some acts -> nth_error lens k = Some len ->
    exists row c, nth_error rows k = Some row /\ nth_error cs k = Some c /\ Forall (fun r => ry r = N.of_nat k * hs /\ rh r = hs)%N row /\
      (well_placed 0 (number 0 (selected activity acts)) (N.of_nat len) ->
       shows_instances row (selected activity acts) (repeat c (length (selected activity acts))) (N.of_nat len)).
Proof.
  unfold draw_placement_single, new_single. destruct (next_color rnd fuel p) as [p1 [c0|e]] eqn:En; [|discriminate].
  destruct (next_cases _ _ _ _ _ En) as [Hni Hu]. rewrite N.mul_1_l.
  destruct (draw_internal lens (place_traces single_next (single_reset rnd fuel) activity hs actss lens 0 []) 1 hs (p1, c0)) as [[p2 c2] r2] eqn:E.
  intros H. injection H as <- ->. apply internal_ok in E. destruct E as [E _].
  destruct (place_traces_pure single_next (single_reset rnd fuel) activity hs actss lens 0 [] (p1, c0)) as (Rf & E').
  rewrite E' in E. clear E'.
  destruct (tcolors single_next (single_reset rnd fuel) (counts activity actss lens) (p1, c0)) as [s1 [css|e]] eqn:Et; [|discriminate].
  injection E as _ <- _. pose proof (tcolors_length _ _ _ _ _ _ Et) as Hl. pose proof (prows_length activity hs actss lens css 0 Hl) as Hpl. split; [exact Hpl|].
  destruct (tcolors_single _ _ _ _ _ _ _ ltac:(rewrite Hu; left; reflexivity) Et) as (cs & A & B & C & D).
  assert (Hcl : length (counts activity actss lens) = Nat.min (length actss) (length lens)) by (unfold counts; rewrite map_length, combine_length; reflexivity).
  exists cs. split; [exact A|]. split; [congruence|]. split.
  { intros c Hc. destruct (B c Hc) as [->|Hn]; [exact Hni|]. intros Hx. apply Hn. rewrite Hu. right. exact Hx. }
  intros k acts len H1 H2. destruct (prows_nth activity hs actss lens css 0 k acts len Hl H1 H2) as (ck & F & G & I).
  rewrite N.add_0_l in I.
  rewrite C, nth_error_map in F. destruct (nth_error (combine cs (counts activity actss lens)) k) as [[c n]|] eqn:Ek; [|discriminate].
  cbn [option_map fst snd] in F. injection F as <-. rewrite repeat_length in G. subst n.
  eexists _, c. split; [exact I|]. split; [|split].
  - clear - Ek. revert Ek. generalize (counts activity actss lens), (length (selected activity acts)). revert k.
    induction cs as [|x cs IH]; intros [|k] [|m l] n E; try discriminate; cbn in *; [congruence|apply (IH _ _ _ E)].
  - apply pbars_y.
  - intros Hw. apply pbars_shows; [rewrite repeat_length; reflexivity|exact Hw].
Qed.

(** *** Coloured logs *)
Lemma colored_row_spread w h cs : forall x y R, fst (colored_row w h cs x y R) = spread w h cs x y.
Proof.
  induction cs as [|c cs IH]; intros x y R; [reflexivity|]. cbn [colored_row spread].
  match goal with |- context[colored_row w h cs ?x1 y ?R1] => specialize (IH x1 y R1); destruct (colored_row w h cs x1 y R1) as [rs R2] end.
  cbn [fst] in *. rewrite IH. reflexivity.
Qed.
Lemma colored_rows_nth w h css : forall y R k cs, nth_error css k = Some cs ->
  nth_error (fst (colored_rows w h css y R)) k = Some (spread w h cs 0 (y + N.of_nat k * h)).
Proof.
  induction css as [|c css IH]; intros y R [|k] cs H; try discriminate; cbn [nth_error colored_rows] in *.
  - injection H as ->. pose proof (colored_row_spread w h cs 0 y R) as E. destruct (colored_row w h cs 0 y R) as [rs R1].
    destruct (colored_rows w h css (y + (h + 0)) R1) as [rss R2]. cbn [fst nth_error] in *. rewrite E. do 2 f_equal. lia.
  - destruct (colored_row w h c 0 y R) as [rs R1]. specialize (IH (y + (h + 0))%N R1 k cs H).
    destruct (colored_rows w h css (y + (h + 0)) R1) as [rss R2]. cbn [fst nth_error] in *. rewrite IH. do 2 f_equal. lia.
Qed.
Lemma colored_rows_length w h css : forall y R, length (fst (colored_rows w h css y R)) = length css.
Proof.
  induction css as [|c css IH]; intros y R; [reflexivity|]. cbn [colored_rows]. destruct (colored_row w h c 0 y R) as [rs R1].
  specialize (IH (y + (h + 0))%N R1). destruct (colored_rows w h css (y + (h + 0)) R1) as [rss R2]. cbn [fst length] in *. congruence.
Qed.
Lemma ticks_row ws cs : forall a, fold_left (fun l c => l + c_len c * ws)%N cs a = (a + total cs * ws)%N.
Proof. induction cs as [|c cs IH]; intros a; cbn [fold_left]; [unfold total; cbn; lia|]. rewrite IH. unfold total. cbn [map fold_right]. lia. Qed.
Lemma ticks_rows ws css : forall m, fold_left (fun m cs => N.max m (fold_left (fun l c => l + c_len c * ws)%N cs ws)) css m =
  match css with [] => m | _ => N.max m (ws + widest css * ws)%N end.
Proof.
  induction css as [|cs css IH]; intros m; [reflexivity|]. cbn [fold_left]. rewrite IH, ticks_row.
  unfold widest. cbn [map fold_right]. fold (widest css). destruct css as [|cs' css].
  - unfold widest. cbn [map fold_right]. rewrite N.max_0_r. reflexivity.
  - rewrite <- N.max_assoc. f_equal. generalize (widest (cs' :: css)), (total cs). intros a b. rewrite N.add_max_distr_l, N.mul_max_distr_r. reflexivity.
Qed.
Lemma colored_proof css ws hs : (0 < ws)%N -> (0 < hs)%N -> css <> [] ->
  exists rows legend, draw_colors_event_log css ws hs = Ok ((rows, legend), (N.of_nat (length css), widest css)) /\
    length rows = length css /\
    forall k cs, nth_error css k = Some cs -> nth_error rows k = Some (spread ws hs cs 0 (N.of_nat k * hs)).
Proof.
  intros Hw Hh Hne. unfold draw_colors_event_log. rewrite !N.mul_1_l.
  pose proof (colored_rows_length ws hs css 0 []) as Hl. pose proof (colored_rows_nth ws hs css 0 []) as Hn.
  destruct (colored_rows ws hs css 0 []) as [rows legend]. cbn [fst] in *. exists rows, legend. split; [|split; [exact Hl|]].
  - unfold colored_axes, colored_ticks. rewrite ticks_rows. destruct (N.eqb_spec hs 0) as [|_]; [lia|].
    destruct css as [|cs css]; [congruence|]. rewrite N.max_0_l.
    destruct (N.eqb_spec (ws + widest (cs :: css) * ws) 0) as [|_]; [lia|]. cbn [bind]. do 3 f_equal.
    + rewrite N.add_sub, N.div_mul by lia. reflexivity.
    + symmetry. apply N.div_unique with (ws - 1)%N; nia.
  - intros k cs Hk. rewrite (Hn k cs Hk), N.add_0_l. reflexivity.
Qed.
(** The legend as the last rectangle of every shown name. *)
Definition put_all {V} (ps : list (pystr * V)) (R : dict pystr V) : dict pystr V := fold_left (fun R kv => dset str_eq_dec R (fst kv) (snd kv)) ps R.
Lemma put_all_NoDup {V} (ps : list (pystr * V)) : forall R, NoDup (dkeys R) -> NoDup (dkeys (put_all ps R)).
Proof. induction ps as [|[k v] ps IH]; intros R H; [exact H|]. apply IH. apply dset_NoDup. exact H. Qed.
Lemma put_all_keys {V} (ps : list (pystr * V)) : forall R n, In n (dkeys (put_all ps R)) <-> In n (dkeys R) \/ In n (map fst ps).
Proof.
  induction ps as [|[k v] ps IH]; intros R n; [cbn; tauto|]. unfold put_all in *. cbn [fold_left fst snd map In]. rewrite IH, dset_In_keys. intuition congruence.
Qed.
Lemma put_all_get {V} (ps : list (pystr * V)) : forall R n v, dget str_eq_dec (put_all ps R) n = Some v ->
  (~ In n (map fst ps) /\ dget str_eq_dec R n = Some v) \/ exists pre post, ps = pre ++ (n, v) :: post /\ ~ In n (map fst post).
Proof.
  induction ps as [|[k v0] ps IH]; intros R n v H; [left; split; [intros []|exact H]|].
  unfold put_all in *. cbn [fold_left fst snd] in H. apply IH in H as [[Hn H]|(pre & post & -> & Hn)].
  - rewrite dget_dset in H. destruct (str_eq_dec k n) as [->|Hk].
    + injection H as ->. right. exists [], ps. split; [reflexivity|exact Hn].
    + left. split; [|exact H]. cbn. intros [E|E]; [congruence|contradiction].
  - right. exists ((k, v0) :: pre), post. split; [reflexivity|exact Hn].
Qed.
Lemma key_firstn (n : pystr) : (if 50 <? length n then firstn 50 n else n) = firstn 50 n.
Proof. destruct (50 <? length n) eqn:E; [reflexivity|]. apply Nat.ltb_ge in E. symmetry. apply firstn_all2. exact E. Qed.
Lemma colored_row_put w h cs : forall x y R, exists ps, snd (colored_row w h cs x y R) = put_all ps R /\
  map fst ps = map (fun c => firstn 50 (c_name c)) cs /\ map (fun kv => fc (snd kv)) ps = map (fun c => color_hex (c_color c)) cs.
Proof.
  induction cs as [|c cs IH]; intros x y R; [exists []; repeat split|]. cbn [colored_row]. rewrite key_firstn.
  match goal with |- context[colored_row w h cs ?x1 y ?R1] => destruct (IH x1 y R1) as (ps & E & F & G); destruct (colored_row w h cs x1 y R1) as [rs R2] end.
  cbn [snd] in *. exists ((firstn 50 (c_name c), mkRect x y (w * c_len c) h (color_hex (c_color c))) :: ps).
  split; [rewrite E; reflexivity|]. cbn [map fst snd fc]. rewrite F, G. split; reflexivity.
Qed.
Lemma colored_rows_put w h css : forall y R, exists ps, snd (colored_rows w h css y R) = put_all ps R /\
  map fst ps = map (fun c => firstn 50 (c_name c)) (concat css) /\ map (fun kv => fc (snd kv)) ps = map (fun c => color_hex (c_color c)) (concat css).
Proof.
  induction css as [|cs css IH]; intros y R; [exists []; repeat split|]. cbn [colored_rows concat].
  destruct (colored_row_put w h cs 0 y R) as (p1 & E1 & F1 & G1). destruct (colored_row w h cs 0 y R) as [rs R1]. cbn [snd] in E1.
  destruct (IH (y + (h + 0))%N R1) as (p2 & E2 & F2 & G2). destruct (colored_rows w h css (y + (h + 0)) R1) as [rss R2]. cbn [snd] in *.
  exists (p1 ++ p2). rewrite !map_app, F1, F2, G1, G2. split; [|split; reflexivity]. rewrite E2, E1. unfold put_all. rewrite fold_left_app. reflexivity.
Qed.
Lemma split_maps {A} (f g : A -> pystr) : forall l a n b x c z, a ++ n :: b = map f l -> x ++ c :: z = map g l -> length a = length x -> ~ In n b ->
  exists pre y post, l = pre ++ y :: post /\ f y = n /\ c = g y /\ forall y', In y' post -> f y' <> n.
Proof.
  induction l as [|y l IH]; intros [|p a] n b [|q x] c z F G Hl Hn; try discriminate.
  - cbn [map app] in F, G. injection F as F1 F2. injection G as G1 G2. exists [], y, l. repeat split; try congruence.
    intros y' Hy X. apply Hn. rewrite F2, <- X. apply in_map. exact Hy.
  - cbn [map app] in F, G. injection F as F1 F2. injection G as G1 G2. injection Hl as Hl. destruct (IH a n b x c z F2 G2 Hl Hn) as (a0 & c0 & b0 & -> & X).
    exists (y :: a0), c0, b0. split; [reflexivity|exact X].
Qed.
Lemma colored_legend_proof css ws hs rows legend lab : draw_colors_event_log css ws hs = Ok ((rows, legend), lab) ->
  NoDup (dkeys legend) /\ (forall n, In n (dkeys legend) <-> exists c, In c (concat css) /\ n = firstn 50 (c_name c)) /\
  forall n r, dget str_eq_dec legend n = Some r ->
    exists pre c post, concat css = pre ++ c :: post /\ firstn 50 (c_name c) = n /\ fc r = color_hex (c_color c) /\
      forall c', In c' post -> firstn 50 (c_name c') <> n.
Proof.
  unfold draw_colors_event_log. destruct (colored_axes css ws hs) as [a|e]; [|discriminate]. cbn [bind]. rewrite !N.mul_1_l. intros H.
  destruct (colored_rows_put ws hs css 0 []) as (ps & E & F & G). destruct (colored_rows ws hs css 0 []) as [rs R]. cbn [snd] in E.
  assert (legend = R) by congruence. subst legend R.
  split; [apply put_all_NoDup; constructor|]. split.
  - intros n. rewrite put_all_keys, F, in_map_iff. cbn [dkeys map In]. split; [intros [[]|(c & Hc & Hi)]; exists c; split; [exact Hi|symmetry; exact Hc]|].
    intros (c & Hi & ->). right. exists c. tauto.
  - intros n r Hr. apply put_all_get in Hr as [[_ Hr]|(pre & post & Ep & Hn)]; [discriminate|]. subst ps. rewrite !map_app in F, G. cbn [map fst snd] in F, G.
    exact (split_maps (fun c => firstn 50 (c_name c)) (fun c => color_hex (c_color c)) _ _ _ _ _ _ _ F G (eq_trans (map_length _ _) (eq_sym (map_length _ _))) Hn).
Qed.
Lemma colored_empty_proof ws hs : (0 < hs)%N -> draw_colors_event_log [] ws hs = Err IndexError.
Proof. intros Hh. unfold draw_colors_event_log, colored_axes. destruct (N.eqb_spec hs 0); [lia|]. reflexivity. Qed.
Lemma spread_side ws hs cs : forall x y, side_by_side x (spread ws hs cs x y) (x + total cs * ws).
Proof.
  induction cs as [|c cs IH]; intros x y; [unfold total; cbn; lia|]. cbn [spread side_by_side rx rw]. split; [reflexivity|].
  unfold total. cbn [map fold_right]. fold (total cs).
  replace (x + (c_len c + total cs) * ws)%N with (x + ws * c_len c + total cs * ws)%N by lia. apply IH.
Qed.

(** *** The canvas *)
Lemma canvas_row_spread ws hs cs : forall x y, canvas_row ws hs cs x y = spread ws hs cs x y.
Proof. induction cs as [|c cs IH]; intros x y; [reflexivity|]. cbn [canvas_row spread]. rewrite (N.mul_comm (c_len c) ws), IH. reflexivity. Qed.
Lemma canvas_rows_nth ws hs css : forall y k cs, nth_error css k = Some cs ->
  nth_error (canvas_rows ws hs css y) k = Some (spread ws hs cs 21 (y + N.of_nat k * hs)).
Proof.
  induction css as [|c css IH]; intros y [|k] cs H; try discriminate; cbn [nth_error canvas_rows] in *.
  - injection H as ->. rewrite canvas_row_spread. do 2 f_equal. lia.
  - rewrite (IH _ _ _ H). do 2 f_equal. lia.
Qed.
Lemma canvas_rows_length ws hs css : forall y, length (canvas_rows ws hs css y) = length css.
Proof. induction css; intros; cbn; auto. Qed.
Lemma total_widest cs css : In cs css -> (total cs <= widest css)%N.
Proof.
  induction css as [|c css IH]; [intros []|]. unfold widest. cbn [map fold_right]. fold (widest css). intros [->|H]; [lia|]. specialize (IH H). lia.
Qed.
Lemma spread_bounds ws hs cs : forall x y r, In r (spread ws hs cs x y) ->
  (x <= rx r /\ rx r + rw r <= x + total cs * ws /\ ry r = y /\ rh r = hs)%N.
Proof.
  induction cs as [|c cs IH]; intros x y r H; [destruct H|]. unfold total. cbn [map fold_right]. fold (total cs). destruct H as [<-|H].
  - cbn [rx rw ry rh]. lia.
  - apply IH in H. lia.
Qed.
Lemma canvas_proof css titled plot_legend ws hs : css <> [] ->
  exists rows width height legend, draw_canvas css titled plot_legend ws hs = Ok (rows, width, height, legend) /\
    length rows = length css /\
    (forall k cs, nth_error css k = Some cs ->
       nth_error rows k = Some (spread ws hs cs 21 ((if titled then 20 else 10) + N.of_nat k * hs))) /\
    (forall row r, In row rows -> In r row -> rx r + rw r <= width /\ ry r + rh r <= height)%N /\
    (plot_legend = true -> NoDup (dkeys legend) /\ forall n, In n (dkeys legend) <-> exists c, In c (concat css) /\ c_name c = n).
Proof.
  intros Hne. unfold draw_canvas. destruct css as [|cs0 css0] eqn:Ecss; [congruence|]. rewrite <- Ecss.
  assert (Ew : canvas_width css = Ok (widest css)) by (rewrite Ecss; reflexivity). rewrite Ew. cbn [bind].
  do 4 eexists. split; [reflexivity|]. split; [apply canvas_rows_length|]. split; [|split].
  - intros k cs Hk. apply canvas_rows_nth. exact Hk.
  - intros row r Hrow Hr. apply In_nth_error in Hrow. destruct Hrow as (k & Hk).
    assert (Hkl : k < length css) by (rewrite <- (canvas_rows_length ws hs css (if titled then 20 else 10)%N); apply nth_error_Some; congruence).
    destruct (nth_error css k) as [cs|] eqn:Ecs; [|apply nth_error_None in Ecs; lia].
    rewrite (canvas_rows_nth ws hs css _ _ _ Ecs) in Hk. injection Hk as <-.
    apply spread_bounds in Hr. pose proof (total_widest cs css (nth_error_In _ _ Ecs)) as Ht.
    destruct Hr as (_ & A & B & C). rewrite B, C. split; [nia|].
    assert (Hm : ((N.of_nat k + 1) * hs <= N.of_nat (length css) * hs)%N) by (apply N.mul_le_mono_r; lia). lia.
  - intros ->. generalize (concat css). intros l.
    assert (Hg : forall d : dict pystr pystr, NoDup (dkeys d) ->
      let d' := fold_left (fun d c => dset str_eq_dec d (c_name c) (color_hex (c_color c))) l d in
      NoDup (dkeys d') /\ forall n, In n (dkeys d') <-> In n (dkeys d) \/ exists c, In c l /\ c_name c = n).
    { induction l as [|c l IH]; intros d Hd; cbn [fold_left].
      - split; [exact Hd|]. intros n. split; [auto|]. intros [H|(c & [] & _)]; exact H.
      - destruct (IH _ (dset_NoDup str_eq_dec d (c_name c) (color_hex (c_color c)) Hd)) as [A B]. split; [exact A|].
        intros n. rewrite (B n), dset_In_keys. split.
        + intros [[->|H]|(c' & H & E)]; [right; exists c; split; [left; reflexivity|reflexivity]|auto|right; exists c'; split; [right; exact H|exact E]].
        + intros [H|(c' & [<-|H] & E)]; [auto|left; left; congruence|right; exists c'; auto]. }
    destruct (Hg [] ltac:(constructor)) as [A B]. split; [exact A|]. intros n. rewrite (B n). split; [intros [[]|H]; exact H|auto].
Qed.
