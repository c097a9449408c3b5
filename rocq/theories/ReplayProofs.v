From Coq Require Import QArith Lia Permutation.
From Verif Require Import Py PyFacts InfoModel InfoProofs ReplayModel ReplaySpec.
Open Scope nat_scope.

Lemma proper_dset : forall m p n, proper m -> 0 < n -> proper (dset N.eq_dec m p n).
Proof.
  intros m p n [H1 H2] Hn; split; [ apply dset_NoDup; exact H1 |].
  intros q k Hin.
  assert (Hg : dget N.eq_dec (dset N.eq_dec m p n) q = Some k) by (apply In_dget; [ apply dset_NoDup; exact H1 | exact Hin ]).
  rewrite dget_dset in Hg. destruct (N.eq_dec p q); [ congruence |]. apply dget_In in Hg. eapply H2; exact Hg.
Qed.
Lemma proper_dget : forall m p n, proper m -> dget N.eq_dec m p = Some n -> 0 < n.
Proof. intros m p n [_ H] Hg. apply dget_In in Hg. eapply H; exact Hg. Qed.

Lemma proper_ddel m p : proper m -> proper (ddel N.eq_dec m p).
Proof.
  intros [H1 H2]; split; [ apply ddel_NoDup; exact H1 |].
  intros q k Hin.
  assert (Hg : dget N.eq_dec (ddel N.eq_dec m p) q = Some k) by (apply In_dget; [ apply ddel_NoDup; exact H1 | exact Hin ]).
  rewrite dget_ddel in Hg by exact H1. destruct (N.eq_dec p q); [ congruence |]. apply dget_In in Hg. eapply H2; exact Hg.
Qed.
Lemma tokens_dset m p n q : tokens (dset N.eq_dec m p n) q = if N.eq_dec p q then n else tokens m q.
Proof. unfold tokens. rewrite dget_dset. destruct (N.eq_dec p q); reflexivity. Qed.
Lemma tokens_ddel m p q : NoDup (dkeys m) -> tokens (ddel N.eq_dec m p) q = if N.eq_dec p q then 0 else tokens m q.
Proof. intros H. unfold tokens. rewrite dget_ddel by exact H. destruct (N.eq_dec p q); reflexivity. Qed.
Lemma tokens_pos m p : proper m -> (dmem N.eq_dec m p = true <-> 1 <= tokens m p).
Proof.
  intros H. unfold tokens, dmem. destruct (dget N.eq_dec m p) as [n|] eqn:E.
  - pose proof (proper_dget _ _ _ H E). split; [lia | reflexivity].
  - split; [discriminate | lia].
Qed.

(** Taking tokens. *)
Lemma consume_ok arcs : forall m, proper m -> NoDup (map arc_place arcs) -> (forall a, In a arcs -> 1 <= tokens m (arc_place a)) ->
  exists m', consume arcs m = Ok m' /\ proper m' /\ forall p, tokens m' p = tokens m p - count_occ N.eq_dec (map arc_place arcs) p.
Proof.
  induction arcs as [|a r IH]; intros m Hm Hnd Hp.
  - exists m. repeat split; try apply Hm. intros p; cbn; lia.
  - cbn [map] in Hnd. apply NoDup_cons_iff in Hnd as [Hna Hnd].
    pose proof (Hp a (or_introl eq_refl)) as Ha.
    assert (Hkeep : forall m1, (forall q, q <> arc_place a -> tokens m1 q = tokens m q) ->
              forall b, In b r -> 1 <= tokens m1 (arc_place b)).
    { intros m1 H1 b Hb. rewrite H1; [ apply Hp; right; exact Hb |].
      intros E. apply Hna. rewrite <- E. apply in_map; exact Hb. }
    cbn [consume map]. unfold tokens in Ha at 1. destruct (dget N.eq_dec m (arc_place a)) as [c|] eqn:Eg; [|lia].
    assert (Et : tokens m (arc_place a) = c) by (unfold tokens; rewrite Eg; reflexivity).
    destruct c as [|[|c]]; [lia | |].
    + destruct (IH (ddel N.eq_dec m (arc_place a))) as (m' & E & Hm' & Ht); [ apply proper_ddel; exact Hm | exact Hnd | |].
      { apply Hkeep. intros q Hq. rewrite tokens_ddel by apply Hm. destruct (N.eq_dec (arc_place a) q); [congruence | reflexivity]. }
      exists m'; split; [exact E | split; [exact Hm' |]]. intros p. rewrite Ht, tokens_ddel by apply Hm. cbn [count_occ].
      destruct (N.eq_dec (arc_place a) p) as [<-|]; [|reflexivity]. lia.
    + destruct (IH (dset N.eq_dec m (arc_place a) (S c))) as (m' & E & Hm' & Ht); [ apply proper_dset; [exact Hm | lia] | exact Hnd | |].
      { apply Hkeep. intros q Hq. rewrite tokens_dset. destruct (N.eq_dec (arc_place a) q); [congruence | reflexivity]. }
      exists m'; split; [exact E | split; [exact Hm' |]]. intros p. rewrite Ht, tokens_dset. cbn [count_occ].
      destruct (N.eq_dec (arc_place a) p) as [<-|]; [|reflexivity]. lia.
Qed.
(** Putting tokens. *)
Lemma produce_ok arcs : forall m, proper m -> proper (produce arcs m) /\
  forall p, tokens (produce arcs m) p = tokens m p + count_occ N.eq_dec (map arc_place arcs) p.
Proof.
  induction arcs as [|a r IH]; intros m Hm; cbn [produce map count_occ].
  - split; [exact Hm | intros p; lia].
  - destruct (dget N.eq_dec m (arc_place a)) as [c|] eqn:Eg.
    + destruct (IH (dset N.eq_dec m (arc_place a) (c + 1))) as [H1 H2]; [ apply proper_dset; [exact Hm | lia] |].
      split; [exact H1 |]. intros p. rewrite H2, tokens_dset. destruct (N.eq_dec (arc_place a) p) as [<-|]; [|reflexivity].
      unfold tokens. rewrite Eg. lia.
    + destruct (IH (dset N.eq_dec m (arc_place a) 1)) as [H1 H2]; [ apply proper_dset; [exact Hm | lia] |].
      split; [exact H1 |]. intros p. rewrite H2, tokens_dset. destruct (N.eq_dec (arc_place a) p) as [<-|]; [|reflexivity].
      unfold tokens. rewrite Eg. lia.
Qed.
Lemma can_fire_enabled m t : proper m -> NoDup (map arc_place (tr_in t)) -> (can_fire m t = true <-> enabled (tokens m) t).
Proof.
  intros Hm Hnd. unfold can_fire, enabled, needs. rewrite forallb_forall. split.
  - intros H p. destruct (in_dec N.eq_dec p (map arc_place (tr_in t))) as [Hi|Hi].
    + apply in_map_iff in Hi as Ha. destruct Ha as (a & <- & Ha). specialize (H a Ha). apply tokens_pos in H; [|exact Hm].
      pose proof (proj1 (NoDup_count_occ N.eq_dec _) Hnd (arc_place a)). lia.
    + apply (count_occ_not_In N.eq_dec) in Hi. rewrite Hi. lia.
  - intros H a Ha. apply tokens_pos; [exact Hm|]. specialize (H (arc_place a)).
    assert (In (arc_place a) (map arc_place (tr_in t))) by (apply in_map; exact Ha).
    apply (count_occ_In N.eq_dec) in H0. lia.
Qed.

(** One candidate that can fire. *)
Definition next_of (s : rstate) (t : ptrans) (ns : bool * rstate) : Prop :=
  fst ns = negb (tr_silent t) /\ proper (rs_marking (snd ns)) /\ rs_fired (snd ns) = rs_fired s ++ [tr_id t] /\
  fires (tokens (rs_marking s)) t (tokens (rs_marking (snd ns))).
Lemma fire_ok s cs : proper (rs_marking s) -> (forall t, In t cs -> NoDup (map arc_place (tr_in t))) ->
  exists news, fire_candidates s cs = Ok news /\
    (forall ns, In ns news -> exists t, In t cs /\ next_of s t ns) /\
    (forall t, In t cs -> enabled (tokens (rs_marking s)) t -> exists ns, In ns news /\ next_of s t ns).
Proof.
  intros Hm. induction cs as [|t r IH]; intros Hs.
  - exists []. repeat split; [ intros ns [] | intros t [] ].
  - destruct IH as (news & E & H1 & H2); [ intros u Hu; apply Hs; right; exact Hu |].
    pose proof (Hs t (or_introl eq_refl)) as Ht.
    cbn [fire_candidates]. destruct (can_fire (rs_marking s) t) eqn:Ec.
    + apply can_fire_enabled in Ec; [| exact Hm | exact Ht].
      destruct (consume_ok (tr_in t) (rs_marking s) Hm Ht) as (m' & Em & Hm' & Htok).
      { intros a Ha. specialize (Ec (arc_place a)). unfold needs in Ec.
        assert (In (arc_place a) (map arc_place (tr_in t))) as Hi by (apply in_map; exact Ha).
        apply (count_occ_In N.eq_dec) in Hi. lia. }
      destruct (produce_ok (tr_out t) m' Hm') as [Hp Hpt].
      rewrite Em. cbn [bind]. rewrite E. cbn [bind]. eexists; split; [reflexivity |].
      assert (Hn : next_of s t (negb (tr_silent t), mkState (produce (tr_out t) m') (rs_fired s ++ [tr_id t]))).
      { unfold next_of. cbn [fst snd rs_marking rs_fired]. split; [reflexivity |]. split; [exact Hp |]. split; [reflexivity |].
        split; [exact Ec |]. intros p. rewrite Hpt, Htok. reflexivity. }
      split.
      * intros ns [<-|Hin]; [ exists t; split; [left; reflexivity | exact Hn] |].
        destruct (H1 ns Hin) as (u & Hu & Hu2). exists u; split; [right; exact Hu | exact Hu2].
      * intros u [<-|Hu] He; [ eexists; split; [left; reflexivity | exact Hn] |].
        destruct (H2 u Hu He) as (ns & Hi & Hx). exists ns; split; [right; exact Hi | exact Hx].
    + rewrite E. eexists; split; [reflexivity |]. split.
      * intros ns Hin. destruct (H1 ns Hin) as (u & Hu & Hu2). exists u; split; [right; exact Hu | exact Hu2].
      * intros u [<-|Hu] He; [| apply H2; [exact Hu | exact He]].
        apply can_fire_enabled in He; [| exact Hm | exact Ht]. congruence.
Qed.
Lemma candidates_In net x t : In t (find_transitions_to_fire net x) <-> In t (n_trans net) /\ (tr_name t = x \/ tr_silent t = true).
Proof.
  unfold find_transitions_to_fire. rewrite in_app_iff, !filter_In. rewrite str_eqb_eq. tauto.
Qed.

Section Net.
  Variable net : pnet.
  Hypothesis Hsimple : simple_net net.
  Variable events : list pystr.

  Lemma handle_ok s x : proper (rs_marking s) ->
    exists news, handle_transition s net x = Ok news /\
      (forall ns, In ns news -> exists t, In t (n_trans net) /\ (tr_name t = x \/ tr_silent t = true) /\ next_of s t ns) /\
      (forall t, In t (n_trans net) -> tr_name t = x \/ tr_silent t = true -> enabled (tokens (rs_marking s)) t ->
         exists ns, In ns news /\ next_of s t ns).
  Proof.
    intros Hm. destruct (fire_ok s (find_transitions_to_fire net x) Hm) as (news & E & H1 & H2).
    { intros t Ht. apply candidates_In in Ht. apply Hsimple, Ht. }
    exists news; split; [exact E |]; split.
    - intros ns Hin. destruct (H1 ns Hin) as (t & Ht & Hn). apply candidates_In in Ht. exists t. tauto.
    - intros t Ht Hx He. apply H2; [ apply candidates_In; tauto | exact He].
  Qed.

  Lemma enabled_ext M M' t : (forall p, M p = M' p) -> enabled M t -> enabled M' t.
  Proof. intros E H p. rewrite <- E. apply H. Qed.
  Lemma fires_ext M M' t M1 : (forall p, M p = M' p) -> fires M t M1 -> fires M' t M1.
  Proof. intros E [H1 H2]. split; [eapply enabled_ext; eauto |]. intros p. rewrite <- E. apply H2. Qed.
  Lemma run_ext M w ids M2 : run net M w ids M2 -> forall M', (forall p, M p = M' p) -> run net M' w ids M2.
  Proof.
    intros H. destruct H as [M M1 E | M t M1 w ids M2 Ht Hs Hf Hr | M t M1 w ids M2 Ht Hs Hf Hr]; intros M' E'.
    - constructor. intros p. rewrite <- E'. apply E.
    - eapply run_event; [exact Ht | exact Hs | eapply fires_ext; eauto | exact Hr].
    - eapply run_silent; [exact Ht | exact Hs | eapply fires_ext; eauto | exact Hr].
  Qed.
  Lemma fires_det M t M1 M2 : fires M t M1 -> fires M t M2 -> forall p, M1 p = M2 p.
  Proof. intros [_ H1] [_ H2] p. rewrite H1, H2. reflexivity. Qed.

  (** A state of the stack: what is left to spell. *)
  Definition good (st : nat * rstate) : Prop := proper (rs_marking (snd st)).
  Definition spells (st : nat * rstate) (ids : list N) (M : N -> nat) : Prop :=
    run net (tokens (rs_marking (snd st))) (skipn (fst st) events) ids M.

  Lemma skipn_cons {A} (l : list A) i x : nth_error l i = Some x -> skipn i l = x :: skipn (S i) l.
  Proof.
    revert i. induction l as [|y l IH]; intros [|i] H; cbn in *; try discriminate; [congruence |]. apply IH; exact H.
  Qed.

  Definition pushed (index : nat) (ns : bool * rstate) : nat * rstate := (index + (if fst ns then 1 else 0), snd ns).

  Lemma loop_step index s x rest fuel : nth_error events index = Some x -> proper (rs_marking s) ->
    exists stack', replay_loop (S fuel) net events ((index, s) :: rest) = replay_loop fuel net events (stack' ++ rest) /\
      (forall f, replay_loop (S f) net events ((index, s) :: rest) = replay_loop f net events (stack' ++ rest)) /\
      (forall rest' f, replay_loop (S f) net events ((index, s) :: rest') = replay_loop f net events (stack' ++ rest')) /\
      (forall st, In st stack' -> exists t ns, In t (n_trans net) /\ (tr_name t = x \/ tr_silent t = true) /\ next_of s t ns /\ st = pushed index ns) /\
      (forall t, In t (n_trans net) -> tr_name t = x \/ tr_silent t = true -> enabled (tokens (rs_marking s)) t ->
         exists ns, In (pushed index ns) stack' /\ next_of s t ns).
  Proof.
    intros Hx Hm. destruct (handle_ok s x Hm) as (news & E & H1 & H2).
    exists (rev (map (pushed index) news)).
    assert (Hr : forall rest' f, replay_loop (S f) net events ((index, s) :: rest') = replay_loop f net events (rev (map (pushed index) news) ++ rest')).
    { intros rest' f. cbn [replay_loop]. rewrite Hx, E. cbn [bind]. reflexivity. }
    split; [apply Hr | split; [intros f; apply Hr | split; [exact Hr | split]]].
    - intros st Hst. apply in_rev in Hst. apply in_map_iff in Hst as (ns & <- & Hin).
      destruct (H1 ns Hin) as (t & Ht & Hc & Hn). exists t, ns. tauto.
    - intros t Ht Hc He. destruct (H2 t Ht Hc He) as (ns & Hin & Hn). exists ns; split; [| exact Hn].
      apply -> in_rev. apply in_map; exact Hin.
  Qed.

  Lemma spells_step index s x t ns ids M : nth_error events index = Some x -> In t (n_trans net) ->
    tr_name t = x \/ tr_silent t = true -> next_of s t ns ->
    spells (pushed index ns) ids M -> spells (index, s) (tr_id t :: ids) M.
  Proof.
    intros Hx Ht Hc (Hb & _ & _ & Hf) Hsp. unfold spells, pushed in *. cbn [fst snd] in *.
    destruct (tr_silent t) eqn:Es; rewrite Hb in Hsp; cbn [negb] in Hsp.
    - rewrite Nat.add_0_r in Hsp. eapply run_silent; eauto.
    - rewrite Nat.add_1_r in Hsp. destruct Hc as [<-|]; [|discriminate]. rewrite (skipn_cons _ _ _ Hx). eapply run_event; eauto.
  Qed.

  (** The loop finds a run of one of the states of its stack. *)
  Lemma loop_sound fuel : forall stack s', Forall good stack -> replay_loop fuel net events stack = Ok (Some s') ->
    proper (rs_marking s') /\ exists st ids, In st stack /\ spells st ids (tokens (rs_marking s')) /\ rs_fired s' = rs_fired (snd st) ++ ids.
  Proof.
    induction fuel as [|fuel IH]; intros stack s' Hg H; [discriminate |].
    destruct stack as [|[index s] rest]; [discriminate |].
    apply Forall_cons_iff in Hg as [Hm Hrest]. unfold good in Hm; cbn [snd] in Hm.
    destruct (nth_error events index) as [x|] eqn:Ex.
    - destruct (loop_step index s x rest fuel Ex Hm) as (stack' & E & _ & _ & H1 & _). rewrite E in H.
      apply IH in H as (Hp & st & ids & Hin & Hsp & Hf).
      + split; [exact Hp |]. apply in_app_iff in Hin as [Hin|Hin].
        * destruct (H1 st Hin) as (t & ns & Ht & Hc & Hn & ->).
          exists (index, s), (tr_id t :: ids). split; [left; reflexivity |]. split; [eapply spells_step; eauto |].
          rewrite Hf. destruct Hn as (_ & _ & Hf' & _). cbn [pushed snd]. rewrite Hf'. rewrite <- app_assoc. reflexivity.
        * exists st, ids. split; [right; exact Hin | tauto].
      + apply Forall_app; split; [| exact Hrest]. apply Forall_forall. intros st Hst.
        destruct (H1 st Hst) as (t & ns & _ & _ & Hn & ->). apply Hn.
    - cbn [replay_loop] in H. rewrite Ex in H. injection H as <-. split; [exact Hm |].
      exists (index, s), []. split; [left; reflexivity |]. split; [| rewrite app_nil_r; reflexivity].
      unfold spells. cbn [fst snd]. apply nth_error_None in Ex. rewrite skipn_all2 by exact Ex. constructor. reflexivity.
  Qed.

  (** A run gives a first step which the loop takes. *)
  Lemma spells_inv index s x ids M : nth_error events index = Some x -> proper (rs_marking s) ->
    spells (index, s) ids M ->
    exists t ids', ids = tr_id t :: ids' /\ In t (n_trans net) /\ (tr_name t = x \/ tr_silent t = true) /\ enabled (tokens (rs_marking s)) t /\
      forall ns, next_of s t ns -> spells (pushed index ns) ids' M.
  Proof.
    intros Hx Hm Hsp. unfold spells in Hsp. cbn [fst snd] in Hsp. rewrite (skipn_cons _ _ _ Hx) in Hsp.
    pose proof (skipn_cons _ _ _ Hx) as Hsk. remember (skipn (S index) events) as tl eqn:Htl.
    remember (x :: tl) as w eqn:Ew. remember (tokens (rs_marking s)) as M0 eqn:EM.
    destruct Hsp as [M M' E | M t M1 w ids M2 Ht Hs Hf Hr | M t M1 w ids M2 Ht Hs Hf Hr].
    - discriminate.
    - injection Ew as Hn Hw. exists t, ids. split; [reflexivity |]. split; [exact Ht |]. split; [left; exact Hn |]. split; [apply Hf |].
      intros ns (Hb & _ & _ & Hf'). unfold spells, pushed. cbn [fst snd]. rewrite Hb, Hs. cbn [negb]. rewrite Nat.add_1_r. rewrite <- Htl, <- Hw.
      eapply run_ext; [exact Hr |]. eapply fires_det; [exact Hf |]. rewrite EM. exact Hf'.
    - exists t, ids. split; [reflexivity |]. split; [exact Ht |]. split; [right; exact Hs |]. split; [apply Hf |].
      intros ns (Hb & _ & _ & Hf'). unfold spells, pushed. cbn [fst snd]. rewrite Hb, Hs. cbn [negb]. rewrite Nat.add_0_r.
      rewrite Hsk.
      eapply run_ext; [exact Hr |]. eapply fires_det; [exact Hf |]. rewrite EM. exact Hf'.
  Qed.

  (** When the loop finds nothing no state of its stack has a run. *)
  Lemma loop_complete fuel : forall stack, Forall good stack -> replay_loop fuel net events stack = Ok None ->
    forall st ids M, In st stack -> ~ spells st ids M.
  Proof.
    induction fuel as [|fuel IH]; intros stack Hg H; [discriminate |].
    destruct stack as [|[index s] rest]; [intros st ids M [] |].
    apply Forall_cons_iff in Hg as [Hm Hrest]. unfold good in Hm; cbn [snd] in Hm.
    destruct (nth_error events index) as [x|] eqn:Ex.
    - destruct (loop_step index s x rest fuel Ex Hm) as (stack' & E & _ & _ & H1 & H2). rewrite E in H.
      assert (Hg' : Forall good (stack' ++ rest)).
      { apply Forall_app; split; [| exact Hrest]. apply Forall_forall. intros st Hst.
        destruct (H1 st Hst) as (t & ns & _ & _ & Hn & ->). apply Hn. }
      pose proof (IH _ Hg' H) as Hno.
      intros st ids M [<-|Hin] Hsp.
      + destruct (spells_inv index s x ids M Ex Hm Hsp) as (t & ids' & _ & Ht & Hc & He & Hk).
        destruct (H2 t Ht Hc He) as (ns & Hin & Hn). eapply Hno; [apply in_app_iff; left; exact Hin |]. apply Hk; exact Hn.
      + eapply Hno; [apply in_app_iff; right; exact Hin | exact Hsp].
    - cbn [replay_loop] in H. rewrite Ex in H. discriminate.
  Qed.

  (** The loop only ever runs out of fuel. *)
  Lemma loop_no_panic fuel : forall stack, Forall good stack -> replay_loop fuel net events stack = Err Diverges \/ exists o, replay_loop fuel net events stack = Ok o.
  Proof.
    induction fuel as [|fuel IH]; intros stack Hg; [left; reflexivity |].
    destruct stack as [|[index s] rest]; [right; eexists; reflexivity |].
    apply Forall_cons_iff in Hg as [Hm Hrest]. unfold good in Hm; cbn [snd] in Hm.
    destruct (nth_error events index) as [x|] eqn:Ex.
    - destruct (loop_step index s x rest fuel Ex Hm) as (stack' & E & _ & _ & H1 & _). rewrite E. apply IH.
      apply Forall_app; split; [| exact Hrest]. apply Forall_forall. intros st Hst.
      destruct (H1 st Hst) as (t & ns & _ & _ & Hn & ->). apply Hn.
    - right. cbn [replay_loop]. rewrite Ex. eexists; reflexivity.
  Qed.

  (** More fuel does not change the outcome. *)
  Lemma loop_more fuel : forall more stack o, replay_loop fuel net events stack = Ok o -> replay_loop (fuel + more) net events stack = Ok o.
  Proof.
    induction fuel as [|fuel IH]; intros more stack o H; [discriminate |]. cbn [Nat.add replay_loop] in *.
    destruct stack as [|[index s] rest]; [exact H |]. destruct (nth_error events index) as [x|]; [| exact H].
    destruct (handle_transition s net x) as [news|e]; [| discriminate]. cbn [bind] in *. apply IH; exact H.
  Qed.

  (** Leaving a stack of states behind after finitely many steps. *)
  Definition done (sts : list (nat * rstate)) : Prop :=
    exists n, forall rest, (exists s, forall f, replay_loop (n + f) net events (sts ++ rest) = Ok (Some s)) \/
      (forall f, replay_loop (n + f) net events (sts ++ rest) = replay_loop f net events rest).
  Lemma done_all sts : (forall st, In st sts -> done [st]) -> done sts.
  Proof.
    induction sts as [|st r IH]; intros H.
    - exists 0. intros rest. right. reflexivity.
    - destruct (H st (or_introl eq_refl)) as (n1 & H1). destruct IH as (n2 & H2); [intros x Hx; apply H; right; exact Hx |].
      exists (n1 + n2). intros rest. destruct (H1 (r ++ rest)) as [(s & Hs)|Hs].
      + left. exists s. intros f. rewrite <- Nat.add_assoc. apply Hs.
      + destruct (H2 rest) as [(s & Hs2)|Hs2].
        * left. exists s. intros f. rewrite <- Nat.add_assoc. etransitivity; [apply Hs | apply Hs2].
        * right. intros f. rewrite <- Nat.add_assoc. etransitivity; [apply Hs | apply Hs2].
  Qed.
  Lemma done_state : silent_ends net -> forall k index s, length events - index <= k -> proper (rs_marking s) -> done [(index, s)].
  Proof.
    intros Hend. induction k as [k IHk] using lt_wf_ind. intros index s Hk Hm.
    destruct s as [m fired]. cbn [rs_marking] in Hm. revert fired Hm. pattern m.
    refine (well_founded_induction_type Hend _ _ m). clear m. intros m IHm fired Hm.
    destruct (nth_error events index) as [x|] eqn:Ex.
    - destruct (loop_step index (mkState m fired) x [] 0 Ex Hm) as (stack' & _ & _ & E & H1 & _).
      assert (Hd : done stack').
      { apply done_all. intros st Hst. destruct (H1 st Hst) as (t & ns & Ht & Hc & Hn & ->).
        destruct Hn as (Hb & Hp & _ & Hf). destruct (tr_silent t) eqn:Es.
        - unfold pushed. rewrite Hb. cbn [negb]. rewrite Nat.add_0_r. destruct ns as [b [m' fired']]. cbn [snd rs_marking] in *.
          apply IHm; [| exact Hp]. exists t. tauto.
        - unfold pushed. rewrite Hb. cbn [negb]. rewrite Nat.add_1_r.
          assert (Hi : index < length events) by (apply nth_error_Some; rewrite Ex; discriminate).
          apply (IHk (length events - S index)); [lia | lia | exact Hp]. }
      destruct Hd as (n & Hn). exists (S n). intros rest. cbn [app Nat.add].
      destruct (Hn rest) as [(s & Hs)|Hs]; [left; exists s | right]; intros f; rewrite E; apply Hs.
    - exists 1. intros rest. left. exists (mkState m fired). intros f. cbn [Nat.add app replay_loop]. rewrite Ex. reflexivity.
  Qed.
  Lemma loop_ends s : silent_ends net -> proper (rs_marking s) -> exists n o, forall f, n <= f -> replay_loop f net events [(0, s)] = Ok o.
  Proof.
    intros Hend Hm. destruct (done_state Hend (length events) 0 s) as (n & Hn); [lia | exact Hm |].
    specialize (Hn []). cbn [app] in Hn. destruct Hn as [(s' & Hs)|Hs].
    - exists n, (Some s'). intros f Hf. replace f with (n + (f - n)) by lia. apply Hs.
    - exists (S n), None. intros f Hf. replace f with (n + S (f - S n)) by lia. rewrite Hs. reflexivity.
  Qed.
End Net.

(** The first state. *)
Lemma rstate_new_proper init : proper init -> rs_marking (rstate_new init) = init.
Proof.
  intros [H _]. unfold rstate_new. cbn [rs_marking].
  assert (G : forall l d : pmarking, NoDup (dkeys (d ++ l)) -> fold_left (fun d kv => dset N.eq_dec d (fst kv) (snd kv)) l d = d ++ l).
  { induction l as [|[k v] l IH]; intros d Hd; cbn [fold_left fst snd]; [rewrite app_nil_r; reflexivity |].
    assert (E : dset N.eq_dec d k v = d ++ [(k, v)]).
    { unfold dkeys in Hd. rewrite map_app in Hd. cbn [map fst] in Hd. apply NoDup_remove_2 in Hd. rewrite in_app_iff in Hd.
      clear IH. induction d as [|[k' v'] d IH]; [reflexivity |]. cbn [dset app]. destruct (N.eq_dec k k') as [->|].
      - exfalso. apply Hd. left. left. reflexivity.
      - f_equal. apply IH. intros X. apply Hd. destruct X; [left; right; assumption | right; assumption]. }
    rewrite E, IH; [rewrite <- app_assoc; reflexivity |]. rewrite <- app_assoc. exact Hd. }
  apply G. exact H.
Qed.

Lemma loop_right net init fuel events o : simple_net net -> proper init ->
  replay_loop fuel net events [(0, rstate_new init)] = Ok o -> replay_right net init events o.
Proof.
  intros Hs Hp H. pose proof (rstate_new_proper init Hp) as Em.
  assert (Hg : Forall good [(0, rstate_new init)]). { constructor; [| constructor]. unfold good. cbn [snd]. rewrite Em. exact Hp. }
  destruct o as [s|].
  - apply (loop_sound net Hs events) in H as (_ & st & ids & [<-|[]] & Hr & Hf); [| exact Hg].
    unfold spells in Hr. cbn [fst snd skipn] in Hr. rewrite Em in Hr. cbn [snd] in Hf.
    assert (E0 : rs_fired (rstate_new init) = []) by reflexivity. rewrite E0 in Hf. cbn [app] in Hf. cbn. rewrite Hf. exact Hr.
  - cbn. intros ids M Hr. eapply (loop_complete net Hs events); [exact Hg | exact H | left; reflexivity |].
    unfold spells. cbn [fst snd skipn]. rewrite Em. exact Hr.
Qed.

Lemma replay_proof net init fuel log r : simple_net net -> n_initial net = Some init -> proper init ->
  replay_petri_net fuel log net = Ok r ->
  exists states, r = Some states /\ Forall2 (replay_right net init) log states.
Proof.
  intros Hs Hi Hp H. unfold replay_petri_net in H. rewrite Hi in H. destruct log as [|tr log].
  - injection H as <-. exists []. split; [reflexivity | constructor].
  - destruct (mapM _ (tr :: log)) as [states|e] eqn:E in H; [| discriminate]. cbn [bind] in H. injection H as <-.
    exists states. split; [reflexivity |]. apply mapM_ok_inv in E.
    induction E as [| events o l os Ho E IH]; [constructor | constructor; [eapply loop_right; eauto | exact IH]].
Qed.
Lemma replay_no_panic_proof net init fuel log e : simple_net net -> n_initial net = Some init -> proper init ->
  replay_petri_net fuel log net = Err e -> e = Diverges.
Proof.
  intros Hs Hi Hp H. unfold replay_petri_net in H. rewrite Hi in H. destruct log as [|tr log]; [discriminate |].
  destruct (mapM _ (tr :: log)) as [states|e'] eqn:E in H; [discriminate |]. cbn [bind] in H. injection H as <-.
  revert E. generalize (tr :: log). intros l. induction l as [|ev l IH]; cbn [mapM]; [discriminate |].
  destruct (loop_no_panic net Hs ev fuel [(0, rstate_new init)]) as [X|(o & X)].
  - constructor; [| constructor]. unfold good. cbn [snd]. rewrite rstate_new_proper by exact Hp. exact Hp.
  - rewrite X. cbn [bind]. congruence.
  - rewrite X. cbn [bind]. destruct (mapM _ l) as [ys|e2]; cbn [bind]; [discriminate |]. intros Y. apply IH. exact Y.
Qed.
Lemma replay_ends_proof net init log : simple_net net -> n_initial net = Some init -> proper init -> silent_ends net ->
  exists n states, forall fuel, n <= fuel -> replay_petri_net fuel log net = Ok (Some states).
Proof.
  intros Hs Hi Hp He.
  assert (G : exists n states, forall fuel, n <= fuel -> mapM (fun events => replay_loop fuel net events [(0, rstate_new init)]) log = Ok states).
  { induction log as [|ev log (n & states & IH)]; [exists 0, []; reflexivity |].
    destruct (loop_ends net Hs ev (rstate_new init) He) as (n' & o & Hn).
    { rewrite rstate_new_proper by exact Hp. exact Hp. }
    exists (n + n'), (o :: states). intros fuel Hf. cbn [mapM]. rewrite Hn by lia. cbn [bind]. rewrite IH by lia. reflexivity. }
  destruct G as (n & states & G). exists n, states. intros fuel Hf. unfold replay_petri_net. rewrite Hi.
  destruct log as [|tr log]; [| rewrite G by exact Hf; reflexivity]. specialize (G fuel Hf). injection G as <-. reflexivity.
Qed.
Lemma replay_more_proof net fuel more log r : replay_petri_net fuel log net = Ok r -> replay_petri_net (fuel + more) log net = Ok r.
Proof.
  unfold replay_petri_net. destruct log as [|tr log]; [tauto |]. destruct (n_initial net) as [init|]; [| tauto].
  destruct (mapM _ (tr :: log)) as [states|e] eqn:E; [| discriminate]. cbn [bind]. intros H.
  assert (E2 : mapM (fun events => replay_loop (fuel + more) net events [(0, rstate_new init)]) (tr :: log) = Ok states).
  { clear H. revert states E. generalize (tr :: log). induction l as [|ev l IH]; intros states E; [exact E |].
    cbn [mapM] in *. destruct (replay_loop fuel net ev [(0, rstate_new init)]) as [o|] eqn:Eo; [| discriminate]. cbn [bind] in E.
    rewrite (loop_more net ev fuel more _ _ Eo). cbn [bind].
    destruct (mapM (fun events => replay_loop fuel net events [(0, rstate_new init)]) l) as [ys|] eqn:Ey; [| discriminate].
    rewrite (IH ys eq_refl). exact E. }
  rewrite E2. exact H.
Qed.

Lemma run_same net net' : (forall t, In t (n_trans net) -> In t (n_trans net')) -> forall M w ids M', run net M w ids M' -> run net' M w ids M'.
Proof.
  intros H M w ids M' Hr. induction Hr; [ constructor; assumption | eapply run_event; eauto | eapply run_silent; eauto ].
Qed.
Lemma replay_order_proof net net' init fuel fuel' log states states' : simple_net net -> n_initial net = Some init -> proper init ->
  same_net net net' -> replay_petri_net fuel log net = Ok (Some states) -> replay_petri_net fuel' log net' = Ok (Some states') ->
  map replayed states = map replayed states'.
Proof.
  intros Hs Hi Hp [Hperm Hi'] H H'.
  assert (Hs' : simple_net net'). { intros t Ht. apply Hs. eapply Permutation_in; [apply Permutation_sym; exact Hperm | exact Ht]. }
  apply (replay_proof net init) in H as (x & Ex & H); [| assumption..]. injection Ex as <-.
  apply (replay_proof net' init) in H' as (x & Ex & H'); [| exact Hs' | congruence | exact Hp]. injection Ex as <-.
  revert states' H'. induction H as [| ev o log states Ho H IH]; intros states' H'; inversion H' as [| ev' o' log' states2 Ho' H2]; subst; [reflexivity |].
  cbn [map]. rewrite (IH _ H2). f_equal.
  assert (A : forall t, In t (n_trans net) -> In t (n_trans net')) by (intros t; apply Permutation_in; exact Hperm).
  assert (B : forall t, In t (n_trans net') -> In t (n_trans net)) by (intros t; apply Permutation_in, Permutation_sym; exact Hperm).
  destruct o as [s|], o' as [s'|]; cbn in *; try reflexivity; exfalso.
  - eapply Ho'. eapply run_same; [exact A | exact Ho].
  - eapply Ho. eapply run_same; [exact B | exact Ho'].
Qed.

(** Weights that go down end silent steps. *)
Section Weights.
  Variable weight : N -> nat.
  Definition over (U : list N) (f : N -> nat) : nat := list_sum (map (fun p => weight p * f p) U).
  Lemma over_add U f g : over U (fun p => f p + g p) = over U f + over U g.
  Proof. unfold over. induction U as [|p U IH]; cbn [map list_sum fold_right]; [reflexivity |]. unfold list_sum in *. cbn [fold_right]. lia. Qed.
  Lemma over_ext U f g : (forall p, In p U -> f p = g p) -> over U f = over U g.
  Proof. intros H. unfold over. f_equal. apply map_ext_in. intros p Hp. rewrite (H p Hp). reflexivity. Qed.
  Lemma over_count U l : NoDup U -> incl l U -> over U (count_occ N.eq_dec l) = list_sum (map weight l).
  Proof.
    intros Hnd. induction l as [|x l IH]; intros Hi.
    - unfold over. cbn [count_occ map]. clear. induction U as [|p U IHU]; [reflexivity |]. cbn [map].
      match goal with |- list_sum (?a :: ?b) = _ => change (list_sum (a :: b)) with (a + list_sum b) end. rewrite IHU. cbn. lia.
    - assert (E : over U (count_occ N.eq_dec (x :: l)) = over U (fun p => (if N.eq_dec x p then 1 else 0) + count_occ N.eq_dec l p)).
      { apply over_ext. intros p _. cbn [count_occ]. destruct (N.eq_dec x p); reflexivity. }
      rewrite E, over_add, IH by (intros y Hy; apply Hi; right; exact Hy). cbn [map]. change (list_sum (weight x :: map weight l)) with (weight x + list_sum (map weight l)).
      f_equal. assert (Hx : In x U) by (apply Hi; left; reflexivity). clear - Hnd Hx. unfold over. induction U as [|p U IH]; [destruct Hx |].
      apply NoDup_cons_iff in Hnd as [Hp Hnd]. cbn [map]. change (list_sum ?a) with (list_sum a).
      match goal with |- list_sum (?a :: ?b) = _ => change (list_sum (a :: b)) with (a + list_sum b) end.
      destruct (N.eq_dec x p) as [->|Hn].
      + assert (Z : list_sum (map (fun p0 => weight p0 * (if N.eq_dec p p0 then 1 else 0)) U) = 0).
        { clear IH Hnd Hx. induction U as [|q U IHU]; [reflexivity |]. cbn [map]. destruct (N.eq_dec p q) as [->|]; [exfalso; apply Hp; left; reflexivity |].
          match goal with |- list_sum (?a :: ?b) = _ => change (list_sum (a :: b)) with (a + list_sum b) end.
          rewrite IHU; [lia | intros X; apply Hp; right; exact X]. }
        rewrite Z. lia.
      + destruct Hx as [->|Hx]; [congruence |]. rewrite IH; [lia | exact Hnd | exact Hx].
  Qed.
  Lemma over_support U V f : NoDup U -> NoDup V -> (forall p, f p <> 0 -> In p U) -> (forall p, f p <> 0 -> In p V) -> over U f = over V f.
  Proof.
    intros HU HV H1 H2.
    assert (F : forall W, over W f = over (filter (fun p => negb (f p =? 0)) W) f).
    { intros W. unfold over. induction W as [|p W IH]; [reflexivity |]. cbn [map filter].
      destruct (f p =? 0) eqn:E; cbn [negb map].
      - apply Nat.eqb_eq in E. rewrite E. match goal with |- list_sum (?a :: ?b) = _ => change (list_sum (a :: b)) with (a + list_sum b) end. rewrite IH. lia.
      - match goal with |- list_sum (?a :: ?b) = list_sum (?c :: ?d) => change (a + list_sum b = c + list_sum d) end. rewrite IH. reflexivity. }
    rewrite (F U), (F V). unfold over.
    assert (P : Permutation (filter (fun p => negb (f p =? 0)) U) (filter (fun p => negb (f p =? 0)) V)).
    { apply NoDup_Permutation; [apply NoDup_filter; exact HU | apply NoDup_filter; exact HV |].
      intros p. rewrite !filter_In, negb_true_iff, Nat.eqb_neq. split; intros [_ X]; split; auto. }
    apply Permutation_map with (f := fun p => weight p * f p) in P. clear - P. induction P; cbn [list_sum fold_right] in *; unfold list_sum in *; cbn [fold_right]; lia.
  Qed.
  Definition weigh (m : pmarking) : nat := over (nodup N.eq_dec (dkeys m)) (tokens m).
  Lemma tokens_key m p : tokens m p <> 0 -> In p (dkeys m).
  Proof. unfold tokens. destruct (dget N.eq_dec m p) eqn:E; [| lia]. intros _. eapply (dget_Some_key N.eq_dec). eauto. Qed.
  Lemma fires_weigh m t m' : fires (tokens m) t (tokens m') ->
    weigh m' + list_sum (map weight (map arc_place (tr_in t))) = weigh m + list_sum (map weight (map arc_place (tr_out t))).
  Proof.
    intros [He Hf].
    set (U := nodup N.eq_dec (dkeys m ++ dkeys m' ++ map arc_place (tr_in t) ++ map arc_place (tr_out t))).
    assert (HU : NoDup U) by apply NoDup_nodup.
    assert (E1 : weigh m = over U (tokens m)).
    { apply over_support; [apply NoDup_nodup | exact HU | |]; intros p Hp; apply tokens_key in Hp; apply nodup_In; [exact Hp |]. apply in_app_iff; left; exact Hp. }
    assert (E2 : weigh m' = over U (tokens m')).
    { apply over_support; [apply NoDup_nodup | exact HU | |]; intros p Hp; apply tokens_key in Hp; apply nodup_In; [exact Hp |]. rewrite !in_app_iff; right; left; exact Hp. }
    rewrite E1, E2.
    rewrite <- (over_count U (map arc_place (tr_in t))), <- (over_count U (map arc_place (tr_out t))); try exact HU.
    - rewrite <- !over_add. apply over_ext. intros p _. rewrite Hf. specialize (He p). unfold needs, gives in *. lia.
    - intros p Hp. apply nodup_In. rewrite !in_app_iff. tauto.
    - intros p Hp. apply nodup_In. rewrite !in_app_iff. tauto.
  Qed.
  Lemma silent_sinks_proof net : silent_sinks net weight -> silent_ends net.
  Proof.
    intros H m.
    remember (weigh m) as k eqn:Ek. revert m Ek. induction k as [k IH] using lt_wf_ind. intros m Ek. constructor.
    intros m' (t & Ht & Hs & Hf). specialize (H t Ht Hs). apply fires_weigh in Hf. apply (IH (weigh m')); [lia | reflexivity].
  Qed.
End Weights.

(** Counting the arcs. *)
Lemma run_ids net M w ids M' : run net M w ids M' -> forall i, In i ids -> In i (map tr_id (n_trans net)).
Proof.
  induction 1 as [| M t M1 w ids M2 Ht Hs Hf Hr IH | M t M1 w ids M2 Ht Hs Hf Hr IH]; intros i Hi; [destruct Hi | |];
    (destruct Hi as [<-|Hi]; [apply in_map; exact Ht | apply IH; exact Hi]).
Qed.
Lemma net_transition_id net t : NoDup (map tr_id (n_trans net)) -> In t (n_trans net) -> net_transition net (tr_id t) = Ok t.
Proof.
  unfold net_transition. induction (n_trans net) as [|u l IH]; intros Hnd Hin; [destruct Hin |]. cbn [find].
  cbn [map] in Hnd. apply NoDup_cons_iff in Hnd as [Hn Hnd]. destruct (N.eqb (tr_id u) (tr_id t)) eqn:E.
  - apply N.eqb_eq in E. destruct Hin as [->|Hin]; [reflexivity |]. exfalso. apply Hn. rewrite E. apply in_map; exact Hin.
  - destruct Hin as [->|Hin]; [rewrite N.eqb_refl in E; discriminate |]. apply IH; assumption.
Qed.
(** The arcs of the transitions with the ids. *)
Definition arcs_by (net : pnet) (i : N) : list N := match net_transition net i with Ok t => arcs_of t | Err _ => [] end.
Lemma count_fired_loop net ids : NoDup (map tr_id (n_trans net)) -> (forall i, In i ids -> In i (map tr_id (n_trans net))) ->
  forall d, loopM (count_fired net) ids d = Ok (fold_left (increase_in_int_map N.eq_dec) (flat_map (arcs_by net) ids) d).
Proof.
  intros Hnd. induction ids as [|i ids IH]; intros H d; [reflexivity |].
  rewrite loopM_cons. cbn [flat_map]. rewrite fold_left_app. unfold count_fired at 1.
  destruct (in_map_iff tr_id (n_trans net) i) as [X _]. destruct (X (H i (or_introl eq_refl))) as (t & <- & Ht).
  unfold arcs_by at 2. rewrite (net_transition_id net t Hnd Ht). cbn [bind]. apply IH. intros j Hj. apply H. right; exact Hj.
Qed.
Lemma count_states_ok net b states : NoDup (map tr_id (n_trans net)) -> (forall i, In i (all_fired states) -> In i (map tr_id (n_trans net))) ->
  forall d, count_states net b states d =
    Ok (if b && negb (forallb replayed states) then None
        else Some (fold_left (increase_in_int_map N.eq_dec) (flat_map (arcs_by net) (all_fired states)) d)).
Proof.
  intros Hnd. induction states as [|[s|] states IH]; intros H d; cbn [count_states forallb replayed].
  - rewrite andb_false_r. reflexivity.
  - change (all_fired (Some s :: states)) with (rs_fired s ++ all_fired states) in *.
    rewrite count_fired_loop; [| exact Hnd | intros i Hi; apply H; apply in_app_iff; left; exact Hi]. cbn [bind andb].
    rewrite IH by (intros i Hi; apply H; apply in_app_iff; right; exact Hi). rewrite flat_map_app, fold_left_app. reflexivity.
  - change (all_fired (None :: states)) with (all_fired states) in *. destruct b; [reflexivity |]. rewrite IH by exact H. reflexivity.
Qed.
Lemma NoDup_flat_other {A B} (f : A -> list B) l x y a : NoDup (flat_map f l) -> In x l -> In y l -> In a (f x) -> In a (f y) -> x = y.
Proof.
  induction l as [|z l IH]; intros Hnd Hx Hy Hax Hay; [destruct Hx |]. cbn [flat_map] in Hnd.
  assert (D : forall b, In b (f z) -> ~ In b (flat_map f l)).
  { intros b Hb Hc. revert Hnd Hb. induction (f z) as [|c r IHr]; intros Hnd Hb; [destruct Hb |]. cbn [app] in Hnd. apply NoDup_cons_iff in Hnd as [Hn Hnd].
    destruct Hb as [->|Hb]; [apply Hn, in_app_iff; right; exact Hc | apply IHr; assumption]. }
  destruct Hx as [->|Hx], Hy as [->|Hy]; try reflexivity.
  - exfalso. apply (D a Hax). apply in_flat_map. eauto.
  - exfalso. apply (D a Hay). apply in_flat_map. eauto.
  - apply IH; try assumption. clear - Hnd. induction (f z) as [|c r IHr]; [exact Hnd |]. cbn [app] in Hnd. apply NoDup_cons_iff in Hnd as [_ Hnd]. apply IHr; exact Hnd.
Qed.
Lemma NoDup_flat_one {A B} (f : A -> list B) l x : NoDup (flat_map f l) -> In x l -> NoDup (f x).
Proof.
  induction l as [|z l IH]; intros Hnd Hx; [destruct Hx |]. cbn [flat_map] in Hnd. destruct Hx as [->|Hx].
  - clear - Hnd. induction (f x) as [|c r IHr]; [constructor |]. cbn [app] in Hnd. apply NoDup_cons_iff in Hnd as [Hn Hnd].
    constructor; [intros X; apply Hn, in_app_iff; left; exact X | apply IHr; exact Hnd].
  - apply IH; [| exact Hx]. clear - Hnd. induction (f z) as [|c r IHr]; [exact Hnd |]. cbn [app] in Hnd. apply NoDup_cons_iff in Hnd as [_ Hnd]. apply IHr; exact Hnd.
Qed.
Lemma count_occ_flat {A} (f : A -> list N) l a : count_occ N.eq_dec (flat_map f l) a = list_sum (map (fun x => count_occ N.eq_dec (f x) a) l).
Proof. induction l as [|x l IH]; [reflexivity |]. cbn [flat_map map]. rewrite count_occ_app, IH. reflexivity. Qed.
Lemma arc_count net t a ids : ids_distinct net -> In t (n_trans net) -> In a (arcs_of t) ->
  (forall i, In i ids -> In i (map tr_id (n_trans net))) ->
  count_occ N.eq_dec (flat_map (arcs_by net) ids) a = occurs_n (tr_id t) ids.
Proof.
  intros [Hids Harcs] Ht Ha H. rewrite count_occ_flat. unfold occurs_n. induction ids as [|i ids IH]; [reflexivity |].
  cbn [map count_occ]. match goal with |- list_sum (?x :: ?y) = _ => change (list_sum (x :: y)) with (x + list_sum y) end.
  rewrite IH by (intros j Hj; apply H; right; exact Hj).
  destruct (proj1 (in_map_iff tr_id (n_trans net) i) (H i (or_introl eq_refl))) as (u & <- & Hu).
  unfold arcs_by. rewrite (net_transition_id net u Hids Hu). destruct (N.eq_dec (tr_id u) (tr_id t)) as [E|E].
  - assert (u = t). { pose proof (net_transition_id net u Hids Hu) as X. rewrite E, (net_transition_id net t Hids Ht) in X. congruence. }
    subst u. rewrite (proj1 (NoDup_count_occ' N.eq_dec (arcs_of t)) (NoDup_flat_one arcs_of _ t Harcs Ht) a Ha). reflexivity.
  - rewrite (proj1 (count_occ_not_In N.eq_dec (arcs_of u) a)); [reflexivity |].
    intros X. apply E. f_equal. eapply (NoDup_flat_other arcs_of); [exact Harcs | exact Hu | exact Ht | exact X | exact Ha].
Qed.
Lemma all_fired_ids net init log states : Forall2 (replay_right net init) log states ->
  forall i, In i (all_fired states) -> In i (map tr_id (n_trans net)).
Proof.
  intros H i Hi. induction H as [| ev o log states Ho H IH]; [destruct Hi |].
  unfold all_fired in Hi. cbn [flat_map] in Hi. apply in_app_iff in Hi as [Hi|Hi]; [| apply IH; exact Hi].
  destruct o as [s|]; [| destruct Hi]. eapply run_ids; [exact Ho | exact Hi].
Qed.

Lemma counts_proof net init fuel log states b : simple_net net -> ids_distinct net -> n_initial net = Some init -> proper init ->
  replay_petri_net fuel log net = Ok (Some states) ->
  exists d, annotate_with_counts fuel log net b = Ok (if b && negb (forallb replayed states) then None else Some d) /\
    NoDup (dkeys d) /\
    (forall t a, In t (n_trans net) -> In a (arcs_of t) ->
       dget N.eq_dec d a = if occurs_n (tr_id t) (all_fired states) =? 0 then None else Some (occurs_n (tr_id t) (all_fired states))) /\
    (forall a, In a (dkeys d) -> exists t, In t (n_trans net) /\ In a (arcs_of t)).
Proof.
  intros Hs Hid Hi Hp H. pose proof (replay_proof net init fuel log _ Hs Hi Hp H) as (x & Ex & HF). injection Ex as <-.
  pose proof (all_fired_ids net init log states HF) as Hids.
  exists (counter N.eq_dec (flat_map (arcs_by net) (all_fired states))).
  split; [| split; [| split]].
  - unfold annotate_with_counts. rewrite H. cbn [bind]. rewrite count_states_ok; [reflexivity | apply Hid | exact Hids].
  - apply fold_increase_NoDup. constructor.
  - intros t a Ht Ha. rewrite counter_get, (arc_count net t a _ Hid Ht Ha Hids). reflexivity.
  - intros a Ha. apply counter_keys in Ha. apply in_flat_map in Ha as (i & Hin & Ha).
    destruct (proj1 (in_map_iff tr_id (n_trans net) i) (Hids i Hin)) as (u & <- & Hu).
    unfold arcs_by in Ha. rewrite (net_transition_id net u (proj1 Hid) Hu) in Ha. eauto.
Qed.
Lemma counts_no_marking_proof net fuel log b : n_initial net = None -> log <> [] -> annotate_with_counts fuel log net b = Ok None.
Proof. intros Hi Hl. unfold annotate_with_counts, replay_petri_net. rewrite Hi. destruct log; [congruence | reflexivity]. Qed.

(** Frequencies. *)
Lemma qsum_div (l : list nat) (s : Q) : (qsum (map (fun n => inject_Z (Z.of_nat n) / s) l) == inject_Z (Z.of_nat (list_sum l)) / s)%Q.
Proof.
  unfold Qdiv. induction l as [|n l IH]; [cbn; reflexivity |]. cbn [map qsum fold_right] in *.
  change (list_sum (n :: l)) with (n + list_sum l). unfold qsum in IH. rewrite IH, Nat2Z.inj_add, inject_Z_plus. ring.
Qed.
Lemma frequencies_proof net fuel log b d : annotate_with_counts fuel log net b = Ok (Some d) ->
  exists fr, annotate_with_frequencies fuel log net b = Ok (Some fr) /\ dkeys fr = dkeys d /\
    (forall a n, In (a, n) d -> exists q, In (a, q) fr /\ (q == inject_Z (Z.of_nat n) / inject_Z (Z.of_nat (list_sum (dvalues d))))%Q) /\
    (0 < list_sum (dvalues d) -> (qsum (dvalues fr) == 1)%Q).
Proof.
  intros H. unfold annotate_with_frequencies. rewrite H. cbn [bind]. eexists; split; [reflexivity |]. split; [| split].
  - unfold dkeys. rewrite map_map. reflexivity.
  - intros a n Hin. exists (inject_Z (Z.of_nat n) / inject_Z (Z.of_nat (list_sum (dvalues d))))%Q. split; [| reflexivity].
    apply in_map_iff. exists (a, n). split; [reflexivity | exact Hin].
  - intros Hpos. unfold dvalues at 1. rewrite map_map. cbn [snd].
    assert (E : map (fun x : N * nat => (inject_Z (Z.of_nat (snd x)) / inject_Z (Z.of_nat (list_sum (dvalues d))))%Q) d =
                map (fun n => (inject_Z (Z.of_nat n) / inject_Z (Z.of_nat (list_sum (dvalues d))))%Q) (dvalues d))
      by (unfold dvalues; rewrite map_map; reflexivity).
    rewrite E, qsum_div. unfold Qdiv. apply Qmult_inv_r. intros X. unfold Qeq in X. cbn in X. lia.
Qed.
Lemma trace_frequency_proof net fuel log b d : annotate_with_counts fuel log net b = Ok (Some d) ->
  exists fr, annotate_with_trace_frequency fuel log net b = Ok (Some fr) /\ dkeys fr = dkeys d /\
    (forall a n, In (a, n) d -> exists q, In (a, q) fr /\ (q == inject_Z (Z.of_nat n) / inject_Z (Z.of_nat (length log)))%Q).
Proof.
  intros H. unfold annotate_with_trace_frequency. rewrite H. cbn [bind]. eexists; split; [reflexivity |]. split.
  - unfold dkeys. rewrite map_map. reflexivity.
  - intros a n Hin. exists (inject_Z (Z.of_nat n) / inject_Z (Z.of_nat (length log)))%Q. split; [| reflexivity].
    apply in_map_iff. exists (a, n). split; [reflexivity | exact Hin].
Qed.

(** Making an initial marking. *)
Definition more_in (place : N) (ids : list N) (t t' : ptrans) : Prop :=
  tr_id t' = tr_id t /\ tr_name t' = tr_name t /\ tr_silent t' = tr_silent t /\ map arc_place (tr_out t') = map arc_place (tr_out t) /\
  map arc_place (tr_in t') = map arc_place (tr_in t) ++ (if in_dec N.eq_dec (tr_id t) ids then [place] else []).
Definition more_out (place : N) (ids : list N) (t t' : ptrans) : Prop :=
  tr_id t' = tr_id t /\ tr_name t' = tr_name t /\ tr_silent t' = tr_silent t /\ map arc_place (tr_in t') = map arc_place (tr_in t) /\
  map arc_place (tr_out t') = map arc_place (tr_out t) ++ (if in_dec N.eq_dec (tr_id t) ids then [place] else []).
Lemma net_transition_In net i : In i (map tr_id (n_trans net)) -> exists t, net_transition net i = Ok t.
Proof.
  unfold net_transition. induction (n_trans net) as [|u l IH]; intros H; [destruct H |]. cbn [find]. destruct (N.eqb (tr_id u) i) eqn:E; [eauto |].
  destruct H as [<-|H]; [rewrite N.eqb_refl in E; discriminate |]. apply IH; exact H.
Qed.
Lemma update_ids net i f net' : (forall t, tr_id (f t) = tr_id t) -> update_transition net i f = Ok net' -> map tr_id (n_trans net') = map tr_id (n_trans net).
Proof.
  intros Hf. unfold update_transition. destruct (net_transition net i); [| discriminate]. intros H. injection H as <-. cbn [n_trans].
  rewrite map_map. apply map_ext. intros t. destruct (N.eqb (tr_id t) i); [apply Hf | reflexivity].
Qed.
Lemma connect_in_all place ids : forall net next, NoDup ids -> (forall i, In i ids -> In i (map tr_id (n_trans net))) ->
  exists net' next', loopM (fun nn id => connect_place_to_transition nn place id) ids (net, next) = Ok (net', next') /\
    n_places net' = n_places net /\ n_initial net' = n_initial net /\ n_final net' = n_final net /\
    Forall2 (more_in place ids) (n_trans net) (n_trans net').
Proof.
  induction ids as [|i ids IH]; intros net next Hnd H.
  - exists net, next. split; [reflexivity |]. repeat (split; [reflexivity |]). induction (n_trans net) as [|t l IHl]; constructor; [| apply IHl; intros j []].
    unfold more_in. cbn [in_dec]. rewrite app_nil_r. repeat split.
  - apply NoDup_cons_iff in Hnd as [Hni Hnd]. rewrite loopM_cons. unfold connect_place_to_transition at 1. cbn [fst snd].
    unfold update_transition. destruct (net_transition_In net i (H i (or_introl eq_refl))) as (u & Eu). rewrite Eu. cbn [bind].
    match goal with |- context [loopM _ _ (?n, ?m)] => destruct (IH n m Hnd) as (net' & next' & E & H1 & H2 & H3 & H4) end.
    { cbn [n_trans]. intros j Hj. rewrite map_map.
      replace (map (fun x => tr_id (if (tr_id x =? i)%N then add_in place next x else x)) (n_trans net)) with (map tr_id (n_trans net)); [apply H; right; exact Hj |].
      apply map_ext. intros t. destruct (tr_id t =? i)%N; reflexivity. }
    exists net', next'. split; [exact E |]. cbn [n_places n_initial n_final n_trans] in *. repeat (split; [assumption |]).
    clear - H4 Hni. revert H4. generalize (n_trans net'). induction (n_trans net) as [|t l IHl]; intros l' H4; inversion H4 as [| x y xs ys Hx Hr]; subst; constructor; [| apply IHl; exact Hr].
    unfold more_in in *. destruct (N.eqb (tr_id t) i) eqn:Ei.
    + apply N.eqb_eq in Ei. cbn [add_in tr_id tr_name tr_silent tr_out tr_in] in Hx. destruct Hx as (A & B & C & D & F). repeat (split; [assumption |]).
      rewrite F, map_app, <- app_assoc. f_equal. cbn [map arc_place app].
      destruct (in_dec N.eq_dec (tr_id t) ids) as [X|X]; [congruence |].
      destruct (in_dec N.eq_dec (tr_id t) (i :: ids)) as [Y|Y]; [reflexivity | exfalso; apply Y; left; congruence].
    + apply N.eqb_neq in Ei. destruct Hx as (A & B & C & D & F). repeat (split; [assumption |]). rewrite F. f_equal.
      destruct (in_dec N.eq_dec (tr_id t) ids) as [X|X], (in_dec N.eq_dec (tr_id t) (i :: ids)) as [Y|Y]; try reflexivity.
      * exfalso. apply Y. right; exact X.
      * destruct Y as [Y|Y]; [congruence | contradiction].
Qed.
Lemma connect_out_all place ids : forall net next, NoDup ids -> (forall i, In i ids -> In i (map tr_id (n_trans net))) ->
  exists net' next', loopM (fun nn id => connect_transition_to_place nn id place) ids (net, next) = Ok (net', next') /\
    n_places net' = n_places net /\ n_initial net' = n_initial net /\ n_final net' = n_final net /\
    Forall2 (more_out place ids) (n_trans net) (n_trans net').
Proof.
  induction ids as [|i ids IH]; intros net next Hnd H.
  - exists net, next. split; [reflexivity |]. repeat (split; [reflexivity |]). induction (n_trans net) as [|t l IHl]; constructor; [| apply IHl; intros j []].
    unfold more_out. cbn [in_dec]. rewrite app_nil_r. repeat split.
  - apply NoDup_cons_iff in Hnd as [Hni Hnd]. rewrite loopM_cons. unfold connect_transition_to_place at 1. cbn [fst snd].
    unfold update_transition. destruct (net_transition_In net i (H i (or_introl eq_refl))) as (u & Eu). rewrite Eu. cbn [bind].
    match goal with |- context [loopM _ _ (?n, ?m)] => destruct (IH n m Hnd) as (net' & next' & E & H1 & H2 & H3 & H4) end.
    { cbn [n_trans]. intros j Hj. rewrite map_map.
      replace (map (fun x => tr_id (if (tr_id x =? i)%N then add_out place next x else x)) (n_trans net)) with (map tr_id (n_trans net)); [apply H; right; exact Hj |].
      apply map_ext. intros t. destruct (tr_id t =? i)%N; reflexivity. }
    exists net', next'. split; [exact E |]. cbn [n_places n_initial n_final n_trans] in *. repeat (split; [assumption |]).
    clear - H4 Hni. revert H4. generalize (n_trans net'). induction (n_trans net) as [|t l IHl]; intros l' H4; inversion H4 as [| x y xs ys Hx Hr]; subst; constructor; [| apply IHl; exact Hr].
    unfold more_out in *. destruct (N.eqb (tr_id t) i) eqn:Ei.
    + apply N.eqb_eq in Ei. cbn [add_out tr_id tr_name tr_silent tr_out tr_in] in Hx. destruct Hx as (A & B & C & D & F). repeat (split; [assumption |]).
      rewrite F, map_app, <- app_assoc. f_equal. cbn [map arc_place app].
      destruct (in_dec N.eq_dec (tr_id t) ids) as [X|X]; [congruence |].
      destruct (in_dec N.eq_dec (tr_id t) (i :: ids)) as [Y|Y]; [reflexivity | exfalso; apply Y; left; congruence].
    + apply N.eqb_neq in Ei. destruct Hx as (A & B & C & D & F). repeat (split; [assumption |]). rewrite F. f_equal.
      destruct (in_dec N.eq_dec (tr_id t) ids) as [X|X], (in_dec N.eq_dec (tr_id t) (i :: ids)) as [Y|Y]; try reflexivity.
      * exfalso. apply Y. right; exact X.
      * destruct Y as [Y|Y]; [congruence | contradiction].
Qed.
Lemma find_name net t : NoDup (map tr_name (n_trans net)) -> In t (n_trans net) -> find_transition_by_name net (tr_name t) = Some t.
Proof.
  unfold find_transition_by_name. induction (n_trans net) as [|u l IH]; intros Hnd Hin; [destruct Hin |]. cbn [find].
  cbn [map] in Hnd. apply NoDup_cons_iff in Hnd as [Hn Hnd]. destruct (str_eqb (tr_name u) (tr_name t)) eqn:E.
  - apply str_eqb_eq in E. destruct Hin as [->|Hin]; [reflexivity |]. exfalso. apply Hn. rewrite E. apply in_map; exact Hin.
  - destruct Hin as [->|Hin]; [rewrite str_eqb_refl in E; discriminate |]. apply IH; assumption.
Qed.
Lemma find_name_some net n t : find_transition_by_name net n = Some t -> In t (n_trans net) /\ tr_name t = n.
Proof. intros H. apply find_some in H as [H1 H2]. apply str_eqb_eq in H2. tauto. Qed.
Lemma hset_insert_In s x y : In y (hset_insert s x) <-> y = x \/ In y s.
Proof.
  unfold hset_insert. destruct (in_dec N.eq_dec x s); [| rewrite in_app_iff; cbn; intuition congruence].
  split; [tauto |]. intros [->|H]; assumption.
Qed.
Lemma hset_insert_NoDup s x : NoDup s -> NoDup (hset_insert s x).
Proof.
  intros H. unfold hset_insert. destruct (in_dec N.eq_dec x s) as [|Hn]; [exact H |].
  apply (Permutation_NoDup (Permutation_cons_append s x)). constructor; assumption.
Qed.
Definition add_named (net : pnet) (s : list N) (n : pystr) : list N :=
  match find_transition_by_name net n with Some t => hset_insert s (tr_id t) | None => s end.
Lemma add_named_In net s n i : NoDup (map tr_name (n_trans net)) ->
  (In i (add_named net s n) <-> In i s \/ exists t, In t (n_trans net) /\ tr_id t = i /\ tr_name t = n).
Proof.
  intros Hnd. unfold add_named. destruct (find_transition_by_name net n) as [t|] eqn:E.
  - apply find_name_some in E as Ht. rewrite hset_insert_In. split.
    + intros [->|H]; [right; exists t; tauto | tauto].
    + intros [H|(u & Hu & <- & Hun)]; [tauto |]. left. pose proof (find_name net u Hnd Hu) as X. rewrite Hun in X. congruence.
  - split; [tauto |]. intros [H|(u & Hu & <- & Hun)]; [exact H |]. pose proof (find_name net u Hnd Hu) as X. rewrite Hun in X. congruence.
Qed.
Lemma add_named_NoDup net s n : NoDup s -> NoDup (add_named net s n).
Proof. intros H. unfold add_named. destruct (find_transition_by_name net n); [apply hset_insert_NoDup; exact H | exact H]. Qed.
Lemma last_rev {A} (t : list A) d : match rev t with x :: _ => x | [] => d end = last t d.
Proof.
  induction t as [|x t IH] using rev_ind; [reflexivity |]. rewrite rev_app_distr, last_last. reflexivity.
Qed.
Lemma ends_loop net : NoDup (map tr_name (n_trans net)) -> forall log s0 e0, NoDup s0 -> NoDup e0 -> ~ In [] log ->
  exists s e, loopM (ends_of_trace net) log (s0, e0) = Ok (s, e) /\ NoDup s /\ NoDup e /\
    (forall i, In i s <-> In i s0 \/ exists t, In t (n_trans net) /\ tr_id t = i /\ starts_some log t = true) /\
    (forall i, In i e <-> In i e0 \/ exists t, In t (n_trans net) /\ tr_id t = i /\ ends_some log t = true).
Proof.
  intros Hnd. induction log as [|tr log IH]; intros s0 e0 Hs He Hne.
  - exists s0, e0. split; [reflexivity |]. split; [exact Hs |]. split; [exact He |].
    split; intros i; (split; [tauto | intros [H|(t & _ & _ & H)]; [exact H | discriminate]]).
  - destruct tr as [|x tr]; [exfalso; apply Hne; left; reflexivity |]. rewrite loopM_cons. cbn [ends_of_trace fst snd bind].
    fold (add_named net s0 x) (add_named net e0 (last (x :: tr) x)).
    destruct (IH (add_named net s0 x) (add_named net e0 (last (x :: tr) x))) as (s & e & E & Ns & Ne & Is & Ie);
      [apply add_named_NoDup; exact Hs | apply add_named_NoDup; exact He | intros X; apply Hne; right; exact X |].
    exists s, e. split; [exact E |]. split; [exact Ns |]. split; [exact Ne |]. split; intros i.
    + rewrite Is, add_named_In by exact Hnd. unfold starts_some. cbn [existsb]. split.
      * intros [[H|(t & Ht & Hi & Hn)]|(t & Ht & Hi & Hn)]; [tauto | |]; right; exists t; (split; [exact Ht | split; [exact Hi |]]); apply orb_true_iff.
        -- left. apply str_eqb_eq. congruence.
        -- right. exact Hn.
      * intros [H|(t & Ht & Hi & Hn)]; [tauto |]. apply orb_true_iff in Hn as [Hn|Hn]; [apply str_eqb_eq in Hn; left; right; exists t; repeat split; congruence |].
        right. exists t. tauto.
    + rewrite Ie, add_named_In by exact Hnd. unfold ends_some. cbn [existsb].
      pose proof (last_rev (x :: tr) x) as L. destruct (rev (x :: tr)) as [|y r] eqn:R.
      { exfalso. apply (f_equal (@length _)) in R. rewrite rev_length in R. discriminate. }
      rewrite <- L. split.
      * intros [[H|(t & Ht & Hi & Hn)]|(t & Ht & Hi & Hn)]; [tauto | |]; right; exists t; (split; [exact Ht | split; [exact Hi |]]); apply orb_true_iff.
        -- left. apply str_eqb_eq. congruence.
        -- right. exact Hn.
      * intros [H|(t & Ht & Hi & Hn)]; [tauto |]. apply orb_true_iff in Hn as [Hn|Hn]; [apply str_eqb_eq in Hn; left; right; exists t; repeat split; congruence |].
        right. exists t. tauto.
Qed.

Lemma ensure_proof order log net next : (forall l, Permutation (order l) l) ->
  NoDup (map tr_id (n_trans net)) -> NoDup (map tr_name (n_trans net)) -> ~ In [] log ->
  exists net' next', ensure_initial_marking order log net next = Ok (net', next') /\
    n_initial net' = Some [(next, 1)] /\ n_final net' = n_final net /\
    n_places net' = dset N.eq_dec (dset N.eq_dec (n_places net) next (str "Start")) (N.succ next) (str "End") /\
    Forall2 (ensured log next (N.succ next)) (n_trans net) (n_trans net').
Proof.
  intros Hord Hids Hnames Hne. unfold ensure_initial_marking.
  destruct (ends_loop net Hnames log [] [] (NoDup_nil _) (NoDup_nil _) Hne) as (s & e & E & Ns & Ne & Is & Ie).
  rewrite E. cbn [bind add_place n_places n_trans n_initial n_final].
  set (net2 := mkNet _ _ _ _).
  assert (Hs : forall i, In i (order s) -> In i (map tr_id (n_trans net2))).
  { intros i Hi. apply (Permutation_in _ (Hord s)) in Hi. apply Is in Hi as [[]|(t & Ht & <- & _)]. apply in_map; exact Ht. }
  destruct (connect_in_all next (order s) net2 (N.succ (N.succ next))) as (net3 & next3 & E3 & P3 & I3 & F3 & T3).
  { eapply Permutation_NoDup; [apply Permutation_sym, Hord | exact Ns]. }
  { exact Hs. }
  rewrite E3. cbn [bind].
  assert (Hids3 : map tr_id (n_trans net3) = map tr_id (n_trans net)).
  { change (n_trans net) with (n_trans net2). clear - T3. induction T3 as [| t t' l l' H T IH]; [reflexivity |]. cbn [map]. rewrite IH. f_equal. apply H. }
  assert (He : forall i, In i (order e) -> In i (map tr_id (n_trans net3))).
  { intros i Hi. rewrite Hids3. apply (Permutation_in _ (Hord e)) in Hi. apply Ie in Hi as [[]|(t & Ht & <- & _)]. apply in_map; exact Ht. }
  destruct (connect_out_all (N.succ next) (order e) net3 next3) as (net4 & next4 & E4 & P4 & I4 & F4 & T4).
  { eapply Permutation_NoDup; [apply Permutation_sym, Hord | exact Ne]. }
  { exact He. }
  rewrite E4. cbn [bind fst snd]. eexists _, next4. split; [reflexivity |]. cbn [n_initial n_final n_places n_trans].
  split; [reflexivity |]. split; [rewrite F4, F3; reflexivity |]. split; [rewrite P4, P3; reflexivity |].
  change (n_trans net2) with (n_trans net) in T3.
  assert (Hst : forall t, In t (n_trans net) -> (In (tr_id t) (order s) <-> starts_some log t = true)).
  { intros t Ht. split.
    - intros Hi. apply (Permutation_in _ (Hord s)) in Hi. apply Is in Hi as [[]|(u & Hu & Eu & X)].
      assert (u = t). { pose proof (net_transition_id net u Hids Hu) as Y. rewrite Eu, (net_transition_id net t Hids Ht) in Y. congruence. } congruence.
    - intros X. apply (Permutation_in _ (Permutation_sym (Hord s))). apply Is. right. exists t. tauto. }
  assert (Hen : forall t, In t (n_trans net) -> (In (tr_id t) (order e) <-> ends_some log t = true)).
  { intros t Ht. split.
    - intros Hi. apply (Permutation_in _ (Hord e)) in Hi. apply Ie in Hi as [[]|(u & Hu & Eu & X)].
      assert (u = t). { pose proof (net_transition_id net u Hids Hu) as Y. rewrite Eu, (net_transition_id net t Hids Ht) in Y. congruence. } congruence.
    - intros X. apply (Permutation_in _ (Permutation_sym (Hord e))). apply Ie. right. exists t. tauto. }
  clear - T3 T4 Hst Hen. revert T4. generalize (n_trans net4). induction T3 as [| t t' l l' H T IH]; intros l4 T4; inversion T4 as [| x y xs ys Hx Hr]; subst; constructor.
  - destruct H as (A1 & A2 & A3 & A4 & A5), Hx as (B1 & B2 & B3 & B4 & B5). unfold ensured.
    split; [congruence |]. split; [congruence |]. split; [congruence |]. split.
    + rewrite B4, A5. f_equal. destruct (in_dec N.eq_dec (tr_id t) (order s)) as [X|X].
      * apply Hst in X; [| left; reflexivity]. rewrite X. reflexivity.
      * destruct (starts_some log t) eqn:Y; [| reflexivity]. exfalso. apply X. apply Hst; [left; reflexivity | exact Y].
    + rewrite B5, A4. f_equal. rewrite A1. destruct (in_dec N.eq_dec (tr_id t) (order e)) as [X|X].
      * apply Hen in X; [| left; reflexivity]. rewrite X. reflexivity.
      * destruct (ends_some log t) eqn:Y; [| reflexivity]. exfalso. apply X. apply Hen; [left; reflexivity | exact Y].
  - apply IH; [intros u Hu; apply Hst; right; exact Hu | intros u Hu; apply Hen; right; exact Hu | exact Hr].
Qed.
Lemma ensure_empty_proof order log net next : In [] log -> ensure_initial_marking order log net next = rpanic.
Proof.
  intros H. unfold ensure_initial_marking.
  assert (G : forall p, loopM (ends_of_trace net) log p = rpanic).
  { induction log as [|tr log IH]; [destruct H |]. intros p. rewrite loopM_cons. destruct tr as [|x tr]; [reflexivity |].
    destruct H as [H|H]; [discriminate |]. cbn [ends_of_trace bind]. apply IH; exact H. }
  rewrite G. reflexivity.
Qed.
(** Who can fire at the new initial marking. *)
Lemma ensured_enabled log start stop t t' : ensured log start stop t t' -> ~ In start (map arc_place (tr_in t)) ->
  (enabled (tokens [(start, 1)]) t' <-> tr_in t = []).
Proof.
  intros (_ & _ & _ & Hin & _) Hfr. unfold enabled, needs. rewrite Hin. split.
  - intros H. destruct (tr_in t) as [|a r] eqn:E; [reflexivity |]. exfalso. specialize (H (arc_place a)).
    cbn [map app count_occ] in H. destruct (N.eq_dec (arc_place a) (arc_place a)) as [_|n]; [| congruence].
    assert (Ha : arc_place a <> start). { intros X. apply Hfr. cbn [map]. left. exact X. }
    unfold tokens in H. cbn [dget] in H. destruct (N.eq_dec (arc_place a) start); [congruence | lia].
  - intros -> p. cbn [map app]. destruct (starts_some log t); cbn [count_occ]; [| lia]. unfold tokens. cbn [dget].
    destruct (N.eq_dec start p) as [->|Hn]; [destruct (N.eq_dec p p); [lia | congruence] | lia].
Qed.
