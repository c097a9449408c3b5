(** Proofs for C50. *)
From Verif Require Import Py PyFacts LogModel ActLogModel ColorModel ColorSpec ColorProofs ColorDrawProofs DrawModel DrawSpec.

Notation getz := (dget Z.eq_dec).
Definition extz (d d' : dict Z pystr) : Prop := forall n c, getz d n = Some c -> getz d' n = Some c.
Definition hcolor (ac : dict Z pystr) (h : Z) : pystr := match getz ac h with Some c => c | None => [] end.
Lemma extz_refl d : extz d d. Proof. intros n c H; exact H. Qed.
Lemma extz_trans a b c : extz a b -> extz b c -> extz a c.
Proof. intros H1 H2 n x H. apply H2, H1, H. Qed.
Lemma hcolor_ext a b h : extz a b -> getz a h <> None -> hcolor a h = hcolor b h.
Proof. intros H Hn. unfold hcolor. destruct (getz a h) as [c|] eqn:E; [|congruence]. rewrite (H _ _ E). reflexivity. Qed.
Lemma dmem_get {V} (d : dict Z V) h : dmem Z.eq_dec d h = match getz d h with Some _ => true | None => false end.
Proof. reflexivity. Qed.
Lemma to_hex_black : to_hex 0 0 0 = str "#000000". Proof. reflexivity. Qed.

Section Random.
  Variable rnd : nat -> N.
  Variable fuel : nat.
  Notation sub_pick := (sub_pick rnd fuel).
  Notation sub_color := (sub_color rnd fuel).

  Definition same_undefined (s s' : state) : Prop := get (snd s') undefined_activity = get (snd s) undefined_activity.

  Lemma sub_color_undefined s : sub_color undefined_activity s = (s, Ok (name_color (snd s) undefined_activity)).
  Proof.
    unfold DrawModel.sub_color, name_color. destruct (get (snd s) undefined_activity); [reflexivity|]. rewrite str_eqb_refl, to_hex_black. reflexivity.
  Qed.

  Lemma sub_color_step n s s' r : sub_color n s = (s', r) ->
    grows s s' /\ same_undefined s s' /\ (forall m, m <> n -> get (snd s') m = get (snd s) m) /\
    match r with Ok c => (n <> undefined_activity -> get (snd s') n = Some c) /\ c = name_color (snd s') n | Err e => no_color s' e end.
  Proof.
    unfold DrawModel.sub_color, name_color, same_undefined. destruct s as [p ca]. cbn [fst snd]. destruct (get ca n) as [c|] eqn:En.
    - intros H. injection H as <- <-. cbn [snd]. rewrite En. repeat split; auto using grows_refl, incl_refl, extends_refl; intros; congruence.
    - destruct (str_eqb n undefined_activity) eqn:Eu.
      + apply str_eqb_eq in Eu. subst n. intros H. injection H as <- <-. cbn [snd]. rewrite En, to_hex_black.
        split; [apply grows_refl|]. split; [reflexivity|]. split; [reflexivity|]. split; [congruence|reflexivity].
      + apply str_eqb_neq in Eu. destruct (next_color rnd fuel p) as [p1 [c|e]] eqn:Ex; intros H; injection H as <- <-; cbn [snd].
        * destruct (next_cases _ _ _ _ _ Ex) as [Hni Hu]. split; [apply grows_next; assumption|].
          split; [rewrite dget_dset; destruct (str_eq_dec n undefined_activity); congruence|].
          split; [intros m Hm; rewrite dget_dset; destruct (str_eq_dec n m); congruence|].
          rewrite dget_dset. destruct (str_eq_dec n n); [split; reflexivity|congruence].
        * split; [apply grows_used; apply (next_cases _ _ _ _ _ Ex)|]. split; [reflexivity|]. split; [reflexivity|].
          exact (next_err _ _ _ _ _ Ex).
  Qed.

  (** The colours of the sub traces in turn. *)
  Fixpoint hpicks (ds : list dto) (ac : dict Z pystr) : st state (dict Z pystr) :=
    match ds with [] => sret ac | d :: r => sbind (sub_pick ac d) (hpicks r) end.
  Lemma hpicks_app a : forall b ac s, hpicks (a ++ b) ac s = sbind (hpicks a ac) (hpicks b) s.
  Proof.
    induction a as [|d a IH]; intros b ac s; [reflexivity|]. cbn [app hpicks].
    unfold sbind. destruct (sub_pick ac d s) as [s1 [ac1|e]]; [|reflexivity]. rewrite IH. reflexivity.
  Qed.
  Lemma sub_pick_step ac d s s' r : sub_pick ac d s = (s', r) ->
    grows s s' /\ same_undefined s s' /\ (forall m, m <> d_name d -> get (snd s') m = get (snd s) m) /\
    match r with
    | Ok ac' => extz ac ac' /\ getz ac' (d_hash d) <> None /\
        (forall h c, getz ac' h = Some c -> getz ac h = Some c \/ (h = d_hash d /\ c = name_color (snd s') (d_name d) /\
                     (d_name d <> undefined_activity -> get (snd s') (d_name d) = Some c)))
    | Err e => no_color s' e
    end.
  Proof.
    unfold DrawModel.sub_pick. rewrite dmem_get. destruct (getz ac (d_hash d)) as [c|] eqn:Eh.
    - intros H. injection H as <- <-. split; [apply grows_refl|]. split; [reflexivity|]. split; [reflexivity|].
      split; [apply extz_refl|]. split; [congruence|auto].
    - unfold sbind, sret. destruct (sub_color (d_name d) s) as [s1 [c|e]] eqn:Ec; intros H; injection H as <- <-.
      + destruct (sub_color_step _ _ _ _ Ec) as (A & B & C & D1 & D2). split; [exact A|]. split; [exact B|]. split; [exact C|].
        split; [|split].
        * intros h x Hx. rewrite dget_dset. destruct (Z.eq_dec (d_hash d) h); [congruence|exact Hx].
        * rewrite dget_dset. destruct (Z.eq_dec (d_hash d) (d_hash d)); congruence.
        * intros h x. rewrite dget_dset. destruct (Z.eq_dec (d_hash d) h) as [<-|]; [|auto]. intros Ex. injection Ex as <-. auto.
      + destruct (sub_color_step _ _ _ _ Ec) as (A & B & C & D). auto.
  Qed.
  Lemma name_color_grows s s' n : grows s s' -> same_undefined s s' -> (get (snd s) n <> None \/ n = undefined_activity) ->
    name_color (snd s') n = name_color (snd s) n.
  Proof.
    intros (_ & Hext & _) Hu Hn. unfold name_color. destruct (get (snd s) n) as [c|] eqn:E; [rewrite (Hext _ _ E); reflexivity|].
    destruct Hn as [Hn| ->]; [congruence|]. rewrite Hu, E. reflexivity.
  Qed.

  Lemma hpicks_spec ds : forall ac s s' r, hpicks ds ac s = (s', r) ->
    grows s s' /\ same_undefined s s' /\ (forall m, ~ In m (map d_name ds) -> get (snd s') m = get (snd s) m) /\
    match r with
    | Ok ac' => extz ac ac' /\ (forall d, In d ds -> getz ac' (d_hash d) <> None) /\
        (forall h c, getz ac' h = Some c -> getz ac h = Some c \/
           exists d, In d ds /\ h = d_hash d /\ c = name_color (snd s') (d_name d) /\
             (d_name d <> undefined_activity -> get (snd s') (d_name d) = Some c))
    | Err e => no_color s' e
    end.
  Proof.
    induction ds as [|d ds IH]; intros ac s s' r H; cbn [hpicks] in H.
    - injection H as <- <-. split; [apply grows_refl|]. split; [reflexivity|]. split; [reflexivity|]. split; [apply extz_refl|]. split; [intros d []|auto].
    - unfold sbind in H. destruct (sub_pick ac d s) as [s1 [ac1|e]] eqn:E1.
      + destruct (sub_pick_step _ _ _ _ _ E1) as (A1 & B1 & C1 & D1 & F1 & G1).
        destruct (IH _ _ _ _ H) as (A2 & B2 & C2 & Hr).
        split; [apply grows_trans with s1; assumption|]. split; [unfold same_undefined in *; congruence|].
        split.
        { intros m Hm. cbn [map In] in Hm. rewrite C2, C1; [reflexivity|intros ->; tauto|tauto]. }
        destruct r as [ac'|e]; [|exact Hr]. destruct Hr as (D2 & F2 & G2). split; [apply extz_trans with ac1; assumption|]. split.
        * intros d' [<-|Hd]; [|apply F2; exact Hd]. destruct (getz ac1 (d_hash d)) as [c|] eqn:Ec; [|congruence]. rewrite (D2 _ _ Ec). discriminate.
        * intros h c Hc. destruct (G2 h c Hc) as [Hc'|(d' & Hd' & P)]; [|right; exists d'; split; [right; exact Hd'|exact P]].
          destruct (G1 h c Hc') as [Hc''|(-> & -> & Hg)]; [left; exact Hc''|].
          right. exists d. split; [left; reflexivity|]. split; [reflexivity|].
          destruct (str_eq_dec (d_name d) undefined_activity) as [Eu|Eu].
          -- split; [|congruence]. rewrite (name_color_grows s1 s' _ A2 B2); [reflexivity|right; exact Eu].
          -- specialize (Hg Eu). split; [|intros _; destruct A2 as (_ & Hext & _); apply Hext; exact Hg].
             rewrite (name_color_grows s1 s' _ A2 B2); [reflexivity|left; congruence].
      + injection H as <- <-. destruct (sub_pick_step _ _ _ _ _ E1) as (A1 & B1 & C1 & D1).
        split; [exact A1|]. split; [exact B1|]. split; [|exact D1]. intros m Hm. apply C1. intros ->. apply Hm. left. reflexivity.
  Qed.

  Section Sub.
    Variables w h : N.
    Variable short : bool.
    Notation wd := (sub_width w short).

    (** The rectangles given the colours. *)
    Definition gap (uc : pystr) (last pos x y : N) : list rect := if (last <? pos)%N then [mkRect x y (wd (pos - last)) h uc] else [].
    Definition gapx (last pos x : N) : N := if (last <? pos)%N then (x + wd (pos - last))%N else x.
    Fixpoint bars (ac : dict Z pystr) (uc : pystr) (ds : list dto) (len last x y : N) : list rect :=
      match ds with
      | [] => gap uc last len x y
      | d :: r => let x' := gapx last (d_start d) x in
                  gap uc last (d_start d) x y ++ mkRect x' y (wd (d_len d)) h (hcolor ac (d_hash d))
                  :: bars ac uc r len (d_start d + d_len d) (x' + wd (d_len d)) y
      end.

    Lemma bars_ext ac ac' uc ds : extz ac ac' -> (forall d, In d ds -> getz ac (d_hash d) <> None) ->
      forall len last x y, bars ac uc ds len last x y = bars ac' uc ds len last x y.
    Proof.
      intros He. induction ds as [|d ds IH]; intros Hd len last x y; [reflexivity|]. cbn [bars].
      rewrite (hcolor_ext ac ac') by (auto; apply Hd; left; reflexivity). rewrite IH by (intros; apply Hd; right; assumption). reflexivity.
    Qed.

    Definition tolegend (names : list pystr) (R R' : dict pystr rect) : Prop :=
      forall n, In n names \/ In n (dkeys R) -> In n (dkeys R').

    Lemma draw_subs_pure ds : forall len last x y ac R s, exists Rf,
      draw_subs rnd fuel w h short ds len last x y ac R s =
      (let '(s', r) := hpicks ds ac s in
       (s', match r with Ok ac' => Ok (bars ac' (name_color (snd s) undefined_activity) ds len last x y, ac', Rf) | Err e => Err e end))
      /\ tolegend (map d_name ds) R Rf.
    Proof.
      induction ds as [|d ds IH]; intros len last x y ac R s.
      - exists R. split; [|intros n [[]|H]; exact H]. cbn [draw_subs hpicks bars]. unfold gap. destruct (last <? len)%N; [|reflexivity].
        unfold sbind. rewrite sub_color_undefined. reflexivity.
      - cbn [draw_subs hpicks]. unfold sbind at 1.
        assert (Hgap : exists Rg, draw_gap rnd fuel w h short last (d_start d) x y R s
           = (s, Ok (gap (name_color (snd s) undefined_activity) last (d_start d) x y, gapx last (d_start d) x, Rg))
           /\ tolegend [] R Rg).
        { unfold draw_gap, gap, gapx. destruct (last <? d_start d)%N.
          - eexists. split; [unfold sbind; rewrite sub_color_undefined; reflexivity|].
            intros n [[]|Hn]. apply dset_In_keys. auto.
          - exists R. split; [reflexivity|]. intros n [[]|Hn]; exact Hn. }
        destruct Hgap as (Rg & Eg & Lg). rewrite Eg. cbn [fst snd].
        unfold sbind. destruct (sub_pick ac d s) as [s1 [ac1|e]] eqn:E1.
        2:{ exists (dset str_eq_dec (fold_left (fun R n => dset str_eq_dec R n (mkRect 0 0 0 0 [])) (map d_name ds) Rg) (d_name d) (mkRect 0 0 0 0 [])).
            split; [reflexivity|]. intros n Hn. apply dset_In_keys. cbn [map In] in Hn.
            assert (Hfold : forall l R0, (In n l \/ In n (dkeys R0)) -> In n (dkeys (fold_left (fun R n => dset str_eq_dec R n (mkRect 0 0 0 0 [])) l R0))).
            { induction l as [|a l IHl]; intros R0 [H|H]; cbn [fold_left]; try contradiction; auto.
              - destruct H as [->|H]; apply IHl; [right; apply dset_In_keys; auto|auto].
              - apply IHl. right. apply dset_In_keys. auto. }
            destruct Hn as [[Hn|Hn]|Hn]; [auto| |]; right; apply Hfold; [auto|]. right. apply Lg. auto. }
        destruct (sub_pick_step _ _ _ _ _ E1) as (A1 & B1 & _ & D1 & F1 & _).
        unfold dgetitem. destruct (getz ac1 (d_hash d)) as [c|] eqn:Ec; [|congruence].
        match goal with |- context[draw_subs rnd fuel w h short ds len ?l ?x1 y ac1 ?R1 s1] =>
          destruct (IH len l x1 y ac1 R1 s1) as (Rf & E & L) end.
        exists Rf. rewrite E. assert (Eu : name_color (snd s1) undefined_activity = name_color (snd s) undefined_activity)
          by (apply name_color_grows; auto).
        rewrite Eu. split.
        * destruct (hpicks ds ac1 s1) as [s2 [ac2|e]] eqn:E2; [|reflexivity]. unfold sret. cbn [fst snd bars].
          assert (Hc : hcolor ac2 (d_hash d) = c).
          { destruct (hpicks_spec _ _ _ _ _ E2) as (_ & _ & _ & Hx & _). unfold hcolor. rewrite (Hx _ _ Ec). reflexivity. }
          rewrite Hc. reflexivity.
        * intros n Hn. apply L. cbn [map In] in Hn. destruct Hn as [[<-|Hn]|Hn].
          -- right. apply dset_In_keys. auto.
          -- auto.
          -- right. apply dset_In_keys. right. apply Lg. auto.
    Qed.

    Definition sub_row (ac : dict Z pystr) (uc : pystr) (ds : list dto) (len y : N) : list rect :=
      match ds with [] => [mkRect 0 y (wd len) h uc] | _ => bars ac uc ds len 0 0 y end.
    Fixpoint sub_rows (ac : dict Z pystr) (uc : pystr) (dss : list (list dto)) (lens : list nat) (y : N) : list (list rect) :=
      match dss, lens with
      | ds :: dss', len :: lens' => sub_row ac uc ds (N.of_nat len) y :: sub_rows ac uc dss' lens' (y + (h + 0))%N
      | _, _ => []
      end.

    Lemma draw_sub_trace_pure ds len y ac R s : exists Rf,
      draw_sub_trace rnd fuel w h short ds len y ac R s =
      (let '(s', r) := hpicks ds ac s in
       (s', match r with Ok ac' => Ok (sub_row ac' (name_color (snd s) undefined_activity) ds len y, ac', Rf) | Err e => Err e end))
      /\ tolegend (map d_name ds) R Rf.
    Proof.
      destruct ds as [|d ds]; [|apply draw_subs_pure]. cbn [draw_sub_trace hpicks sub_row]. unfold sbind.
      rewrite sub_color_undefined. eexists. split; [reflexivity|]. intros n [[]|Hn]. apply dset_In_keys. auto.
    Qed.
    Lemma sub_row_ext ac ac' uc ds : extz ac ac' -> (forall d, In d ds -> getz ac (d_hash d) <> None) ->
      forall len y, sub_row ac uc ds len y = sub_row ac' uc ds len y.
    Proof. intros He Hd len y. destruct ds; [reflexivity|]. apply bars_ext; assumption. Qed.

    Lemma draw_sub_traces_pure dss : forall lens y ac R s, exists Rf,
      draw_sub_traces rnd fuel w h short dss lens y ac R s =
      (let '(s', r) := hpicks (drawn_subs dss lens) ac s in
       (s', match r with Ok ac' => Ok (sub_rows ac' (name_color (snd s) undefined_activity) dss lens y, Rf) | Err e => Err e end))
      /\ tolegend (map d_name (drawn_subs dss lens)) R Rf.
    Proof.
      induction dss as [|ds dss IH]; intros lens y ac R s.
      - exists R. split; [reflexivity|]. intros n [[]|Hn]; exact Hn.
      - destruct lens as [|len lens]; [exists R; split; [reflexivity|]; intros n [[]|Hn]; exact Hn|].
        cbn [draw_sub_traces]. unfold drawn_subs. cbn [combine map concat fst]. fold (drawn_subs dss lens).
        destruct (draw_sub_trace_pure ds (N.of_nat len) y ac R s) as (R1 & E1 & L1).
        destruct (hpicks ds ac s) as [s1 [ac1|e]] eqn:Eh.
        + destruct (IH lens (y + (h + 0))%N ac1 R1 s1) as (R2 & E2 & L2). exists R2.
          assert (Eu : name_color (snd s1) undefined_activity = name_color (snd s) undefined_activity).
          { destruct (hpicks_spec _ _ _ _ _ Eh) as (A & B & _). apply name_color_grows; auto. }
          split.
          * unfold sbind. rewrite E1. cbn [fst snd]. rewrite E2, Eu, hpicks_app. unfold sbind. rewrite Eh.
            destruct (hpicks (drawn_subs dss lens) ac1 s1) as [s2 [ac2|e]] eqn:Eh2; [|reflexivity].
            unfold sret. cbn [fst snd sub_rows]. rewrite (sub_row_ext ac1 ac2); [reflexivity| |].
            -- apply (hpicks_spec _ _ _ _ _ Eh2).
            -- destruct (hpicks_spec _ _ _ _ _ Eh) as (_ & _ & _ & _ & B & _). exact B.
          * intros n Hn. apply L2. rewrite map_app, in_app_iff in Hn. destruct Hn as [[Hn|Hn]|Hn]; [right|left; exact Hn|right]; apply L1; auto.
        + exists (fold_left (fun R n => dset str_eq_dec R n (mkRect 0 0 0 0 [])) (map d_name (ds ++ drawn_subs dss lens)) R).
          split.
          * unfold sbind. rewrite E1, hpicks_app. unfold sbind. rewrite Eh. reflexivity.
          * generalize (map d_name (ds ++ drawn_subs dss lens)). intros l. clear. revert R.
            induction l as [|a l IHl]; intros R n [H|H]; cbn [fold_left]; try contradiction; auto.
            -- apply IHl. destruct H as [->|H]; [right; apply dset_In_keys; auto|auto].
            -- apply IHl. right. apply dset_In_keys. auto.
    Qed.

    Lemma sub_rows_nth ac uc dss : forall lens y k ds len, nth_error dss k = Some ds -> nth_error lens k = Some len ->
      nth_error (sub_rows ac uc dss lens y) k = Some (sub_row ac uc ds (N.of_nat len) (y + N.of_nat k * h)).
    Proof.
      induction dss as [|d0 dss IH]; intros [|l0 lens] y [|k] ds len H1 H2; try discriminate; cbn [nth_error sub_rows] in *.
      - injection H1 as ->. injection H2 as ->. f_equal. f_equal. lia.
      - rewrite (IH _ _ _ _ _ H1 H2). f_equal. f_equal. lia.
    Qed.
    Lemma sub_rows_length ac uc dss : forall lens y, length (sub_rows ac uc dss lens y) = Nat.min (length dss) (length lens).
    Proof. induction dss; intros [|l lens] y; cbn; auto. Qed.

    Lemma bars_y ac uc ds : forall len last x y, Forall (fun r => ry r = y /\ rh r = h) (bars ac uc ds len last x y).
    Proof.
      assert (Hg : forall last pos x y, Forall (fun r => ry r = y /\ rh r = h) (gap uc last pos x y)).
      { intros. unfold gap. destruct (_ <? _)%N; repeat constructor. }
      induction ds as [|d ds IH]; intros len last x y; cbn [bars]; [apply Hg|]. apply Forall_app. split; [apply Hg|].
      constructor; [split; reflexivity|apply IH].
    Qed.
    Lemma sub_row_y ac uc ds len y : Forall (fun r => ry r = y /\ rh r = h) (sub_row ac uc ds len y).
    Proof. destruct ds; [repeat constructor|apply bars_y]. Qed.

    Definition piece_color (ac : dict Z pystr) (uc : pystr) (o : option Z) : pystr := match o with Some z => hcolor ac z | None => uc end.
    Lemma bars_pieces ac uc ds : forall len last x y, map fc (bars ac uc ds len last x y) = map (piece_color ac uc) (pieces last ds len).
    Proof.
      induction ds as [|d ds IH]; intros len last x y; cbn [bars pieces]; unfold gap.
      - destruct (_ <? _)%N; reflexivity.
      - rewrite !map_app. cbn [map]. rewrite IH. destruct (_ <? _)%N; reflexivity.
    Qed.
    Lemma sub_row_pieces ac uc ds len y : map fc (sub_row ac uc ds len y) = map (piece_color ac uc) (trace_pieces ds len).
    Proof. destruct ds; [reflexivity|apply bars_pieces]. Qed.
  End Sub.

  (** Short: unit rectangles. *)
  Lemma short_side w h ac uc ds : forall len last x y,
    side_by_side x (bars w h true ac uc ds len last x y) (x + N.of_nat (length (pieces last ds len)) * w)%N /\
    Forall (fun r => rw r = w) (bars w h true ac uc ds len last x y).
  Proof.
    induction ds as [|d ds IH]; intros len last x y; cbn [bars pieces]; unfold gap, gapx, sub_width.
    - destruct (_ <? _)%N; cbn [length side_by_side rx rw]; split; try (split; [reflexivity|]); try lia; repeat constructor.
    - destruct (last <? d_start d)%N; cbn [app length side_by_side rx rw].
      + destruct (IH len (d_start d + d_len d)%N (x + w + w)%N y) as [A B]. split; [|repeat constructor; exact B].
        split; [reflexivity|]. split; [reflexivity|].
        replace (x + N.of_nat (S (S (length (pieces (d_start d + d_len d) ds len)))) * w)%N
          with (x + w + w + N.of_nat (length (pieces (d_start d + d_len d) ds len)) * w)%N by lia. exact A.
      + destruct (IH len (d_start d + d_len d)%N (x + w)%N y) as [A B]. split; [|repeat constructor; exact B].
        split; [reflexivity|].
        replace (x + N.of_nat (S (length (pieces (d_start d + d_len d) ds len))) * w)%N
          with (x + w + N.of_nat (length (pieces (d_start d + d_len d) ds len)) * w)%N by lia. exact A.
  Qed.

  (** Full: the widths are the lengths. *)
  Lemma side_app rs1 : forall rs2 x x1 x2, side_by_side x rs1 x1 -> side_by_side x1 rs2 x2 -> side_by_side x (rs1 ++ rs2) x2.
  Proof. induction rs1 as [|r rs1 IH]; cbn; intros rs2 x x1 x2 H1 H2; [subst; exact H2|]. destruct H1 as [E H1]. split; [exact E|]. eapply IH; eauto. Qed.
  Lemma full_side w h ac uc ds : forall len last y, well_placed last ds len ->
    side_by_side (last * w) (bars w h false ac uc ds len last (last * w) y) (len * w).
  Proof.
    induction ds as [|d ds IH]; intros len last y Hw; cbn [bars well_placed] in *; unfold gap, gapx, sub_width.
    - destruct (N.ltb_spec last len) as [Hl|Hl]; cbn; [split; [reflexivity|]; nia|]. f_equal. lia.
    - destruct Hw as [Hs Hw]. specialize (IH len (d_start d + d_len d)%N y Hw).
      destruct (N.ltb_spec last (d_start d)) as [Hl|Hl]; cbn [app side_by_side rx rw].
      + split; [reflexivity|]. split; [reflexivity|].
        replace (last * w + w * (d_start d - last) + w * d_len d)%N with ((d_start d + d_len d) * w)%N by nia. exact IH.
      + assert (last = d_start d) by lia. subst last. split; [reflexivity|].
        replace (d_start d * w + w * d_len d)%N with ((d_start d + d_len d) * w)%N by nia. exact IH.
  Qed.
  Lemma painted_app_l w a b i c : painted_at w a i c -> painted_at w (a ++ b) i c.
  Proof. intros (r & H & P). exists r. split; [apply in_or_app; auto|exact P]. Qed.
  Lemma painted_app_r w a b i c : painted_at w b i c -> painted_at w (a ++ b) i c.
  Proof. intros (r & H & P). exists r. split; [apply in_or_app; auto|exact P]. Qed.
  Lemma painted_cons w r b i c : painted_at w b i c -> painted_at w (r :: b) i c.
  Proof. intros (r' & H & P). exists r'. split; [right; exact H|exact P]. Qed.
  Lemma well_placed_after ds : forall l len d, well_placed l ds len -> In d ds -> (l <= d_start d)%N.
  Proof.
    induction ds as [|e ds IH]; intros l len d Hw Hin; [destruct Hin|]. cbn [well_placed] in Hw. destruct Hw as [A B].
    destruct Hin as [<-|Hin]; [exact A|]. specialize (IH _ _ _ B Hin). lia.
  Qed.
  Lemma full_painted w h ac uc ds : forall len last y i, well_placed last ds len -> (last <= i < len)%N ->
    (forall d, In d ds -> covers d i -> painted_at w (bars w h false ac uc ds len last (last * w) y) i (hcolor ac (d_hash d))) /\
    ((forall d, In d ds -> ~ covers d i) -> painted_at w (bars w h false ac uc ds len last (last * w) y) i uc).
  Proof.
    induction ds as [|d ds IH]; intros len last y i Hw Hi; cbn [bars well_placed] in *.
    - split; [intros d []|]. intros _. unfold gap, sub_width. destruct (N.ltb_spec last len) as [Hl|Hl]; [|lia].
      eexists. split; [left; reflexivity|]. cbn [rx rw fc]. repeat split; nia.
    - destruct Hw as [Hs Hw].
      assert (Ex : gapx w false last (d_start d) (last * w)%N = (d_start d * w)%N).
      { unfold gapx, sub_width. destruct (N.ltb_spec last (d_start d)); nia. }
      rewrite Ex. unfold sub_width. replace (d_start d * w + w * d_len d)%N with ((d_start d + d_len d) * w)%N by nia.
      destruct (N.lt_ge_cases i (d_start d)) as [Hlt|Hge].
      { split.
        - intros d' Hin Hcov. exfalso. destruct Hin as [<-|Hin]; [unfold covers in Hcov; lia|].
          assert (Hge' : (d_start d + d_len d <= d_start d')%N).
          { apply (well_placed_after ds _ len); assumption. }
          unfold covers in Hcov. lia.
        - intros _. apply painted_app_l. unfold gap, sub_width. destruct (N.ltb_spec last (d_start d)); [|lia].
          eexists. split; [left; reflexivity|]. cbn [rx rw fc]. repeat split; nia. }
      destruct (N.lt_ge_cases i (d_start d + d_len d)) as [Hin|Hout].
      { assert (Hp : painted_at w (gap w h false uc last (d_start d) (last * w) y ++
            {| rx := d_start d * w; ry := y; rw := w * d_len d; rh := h; fc := hcolor ac (d_hash d) |}
            :: bars w h false ac uc ds len (d_start d + d_len d) ((d_start d + d_len d) * w) y) i (hcolor ac (d_hash d))).
        { apply painted_app_r. eexists. split; [left; reflexivity|]. cbn [rx rw fc]. repeat split; nia. }
        split.
        - intros d' [<-|Hd'] Hcov; [exact Hp|]. exfalso.
          assert (Hge' : (d_start d + d_len d <= d_start d')%N).
          { apply (well_placed_after ds _ len); assumption. }
          unfold covers in Hcov. lia.
        - intros Hno. exfalso. apply (Hno d (or_introl eq_refl)). unfold covers. lia. }
      destruct (IH len (d_start d + d_len d)%N y i Hw ltac:(lia)) as [A B]. split.
      + intros d' [<-|Hd'] Hcov; [unfold covers in Hcov; lia|]. apply painted_app_r, painted_cons, A; assumption.
      + intros Hno. apply painted_app_r, painted_cons, B. intros d' Hd'. apply Hno. right. exact Hd'.
  Qed.
End Random.

Lemma log_axes_cases lens ws hs : match log_axes lens ws hs with
  | Ok a => a = (N.of_nat (length lens), N.of_nat (fold_right Nat.max 0 lens))
  | Err e => (e = ZeroDivisionError /\ (hs = 0 \/ ws = 0)%N) \/ (e = ValueError /\ lens = []) end.
Proof.
  rewrite log_axes_ok. destruct (N.eqb_spec hs 0) as [->|]; [left; auto|]. destruct lens as [|l lens]; [right; auto|].
  destruct (N.eqb_spec ws 0) as [->|]; [left; auto|]. reflexivity.
Qed.

(** The diagrams of sub traces. *)
Lemma sub_proof rnd fuel lens dss short ws hs p ca p' ca' r :
  draw_sub_diagram rnd fuel lens dss short ws hs (p, ca) = ((p', ca'), r) ->
  (forall n c, get ca n = Some c -> get ca' n = Some c) /\
  (forall n, ~ In n (map d_name (drawn_subs dss lens)) -> get ca' n = get ca n) /\
  (distinct ca -> taken ca p -> distinct ca' /\ taken ca' p') /\
  match r with
  | Ok ((rows, legend), labels) =>
      labels = (N.of_nat (length lens), N.of_nat (fold_right Nat.max 0 lens)) /\
      length rows = Nat.min (length dss) (length lens) /\
      incl (map d_name (drawn_subs dss lens)) (dkeys legend) /\
      exists acol,
        (forall d, In d (drawn_subs dss lens) -> exists d', In d' (drawn_subs dss lens) /\ d_hash d' = d_hash d /\
           acol (d_hash d) = name_color ca' (d_name d') /\ (d_name d' <> undefined_activity -> get ca' (d_name d') <> None)) /\
        forall k ds len, nth_error dss k = Some ds -> nth_error lens k = Some len ->
          exists row, nth_error rows k = Some row /\ Forall (fun r => ry r = N.of_nat k * hs /\ rh r = hs)%N row /\
            map fc row = map (fun o => match o with Some z => acol z | None => name_color ca undefined_activity end) (trace_pieces ds (N.of_nat len)) /\
            (short = true -> side_by_side 0 row (N.of_nat (length (trace_pieces ds (N.of_nat len))) * ws) /\ Forall (fun r => rw r = ws) row) /\
            (short = false -> well_placed 0 ds (N.of_nat len) ->
               side_by_side 0 row (N.of_nat len * ws) /\
               forall i, (i < N.of_nat len)%N ->
                 (forall d, In d ds -> covers d i -> painted_at ws row i (acol (d_hash d))) /\
                 ((forall d, In d ds -> ~ covers d i) -> painted_at ws row i (name_color ca undefined_activity)))
  | Err e => e = Diverges \/ (e = OverflowError /\ N.of_nat (length (used p')) = (256 ^ 3)%N) \/
             (e = ZeroDivisionError /\ (hs = 0 \/ ws = 0)%N) \/ (e = ValueError /\ lens = [])
  end.
Proof.
  unfold draw_sub_diagram, draw_internal. rewrite !N.mul_1_l. unfold sbind.
  destruct (draw_sub_traces_pure rnd fuel ws hs short dss lens 0 [] [] (p, ca)) as (Rf & E & L). rewrite E.
  destruct (hpicks rnd fuel (drawn_subs dss lens) [] (p, ca)) as [s1 r1] eqn:Eh.
  destruct (hpicks_spec _ _ _ _ _ _ _ Eh) as (A & B & C & Hr). cbn [fst snd] in *.
  intros H. assert (Hs : s1 = (p', ca')).
  { apply (f_equal fst) in H. destruct r1; [|exact H]. destruct (log_axes lens ws hs); exact H. }
  subst s1. cbn [fst snd] in *. split; [apply A|]. split; [exact C|]. split; [intros Hd Ht; exact (grows_good _ _ A Hd Ht)|].
  apply (f_equal snd) in H. destruct r1 as [ac'|e].
  2:{ cbn [snd] in H. subst r. destruct Hr as [Hr|Hr]; auto. }
  pose proof (log_axes_cases lens ws hs) as Ha. destruct (log_axes lens ws hs) as [a|e]; cbn [snd sret sfail] in H; subst r.
  2:{ auto. }
  split; [exact Ha|]. split; [apply sub_rows_length|]. split; [intros n Hn; apply L; auto|].
  destruct Hr as (_ & Hk & Hc). exists (hcolor ac'). split.
  - intros d Hd. specialize (Hk d Hd). destruct (getz ac' (d_hash d)) as [c|] eqn:Ec; [|congruence].
    destruct (Hc _ _ Ec) as [Hf|(d' & Hd' & E1 & E2 & E3)]; [discriminate|]. exists d'. split; [exact Hd'|]. split; [congruence|].
    unfold hcolor. rewrite Ec. split; [exact E2|]. intros Hu. rewrite (E3 Hu). discriminate.
  - intros k ds len H1 H2. eexists. split; [apply sub_rows_nth; eassumption|]. rewrite N.add_0_l.
    split; [apply sub_row_y|]. split; [apply sub_row_pieces|]. split.
    + intros ->. destruct ds as [|d ds]; [cbn [sub_row trace_pieces length side_by_side rx rw sub_width]; split; [split; [reflexivity|lia]|repeat constructor]|]. unfold sub_row, trace_pieces.
      destruct (short_side ws hs ac' (name_color ca undefined_activity) (d :: ds) (N.of_nat len) 0 0 (N.of_nat k * hs)) as [X Y].
      split; [exact X|exact Y].
    + intros -> Hw. destruct ds as [|d ds].
      * unfold sub_row, sub_width. split; [cbn; split; [reflexivity|lia]|]. intros i Hi. split; [intros d []|]. intros _.
        eexists. split; [left; reflexivity|]. cbn [rx rw fc]. repeat split; nia.
      * unfold sub_row. pose proof (full_side ws hs ac' (name_color ca undefined_activity) (d :: ds) (N.of_nat len) 0 (N.of_nat k * hs)%N Hw) as X.
        rewrite N.mul_0_l in X. split; [exact X|]. intros i Hi.
        pose proof (full_painted ws hs ac' (name_color ca undefined_activity) (d :: ds) (N.of_nat len) 0 (N.of_nat k * hs)%N i Hw ltac:(lia)) as Y.
        rewrite N.mul_0_l in Y. exact Y.
Qed.
