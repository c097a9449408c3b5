From Coq Require Import Permutation.
From Verif Require Import Py PyFacts LogModel HeapModel HeapSpec HeapProofs CtxModel CtxSpec.

Definition below (n : nat) (v : hv) : Prop := forall l, In l (vref v) -> l < n.

(** A context object and the store it stands for. *)
Definition rep (n0 : nat) (h : heap) (c : hv) (s : store) : Prop :=
  exists l d, c = HRef l /\ n0 <= l < next h /\ cells h l = Some (OCtx d) /\ NoDup (dkeys d) /\
    (forall k, dget str_eq_dec d k = s k) /\ (forall k v, s k = Some v -> below (next h) v).

Record inv (h0 : heap) (old : hv -> Prop) (h : heap) (env : list hv) (ss : list store) : Prop := mkInv {
  inv_above : above h;
  inv_next : next h0 <= next h;
  inv_old : forall x, x < next h0 -> cells h x = cells h0 x;
  inv_rep : Forall2 (rep (next h0) h) env ss;
  inv_nodup : NoDup env;
  inv_below : forall v, old v -> below (next h) v
}.

Lemma Forall2_nth {A B} (P : A -> B -> Prop) l m i : Forall2 P l m ->
  (i < length l -> exists a b, nth_error l i = Some a /\ nth_error m i = Some b /\ P a b).
Proof.
  intro Hf. revert i. induction Hf as [|a b l m Hab Hf IH]; intros i Hi; cbn in Hi; [lia|]. destruct i as [|i]; cbn; [eauto|]. apply IH. lia.
Qed.
Lemma Forall2_len {A B} (P : A -> B -> Prop) l m : Forall2 P l m -> length l = length m.
Proof. induction 1; cbn; auto. Qed.
Lemma nth_of_error {A} (l : list A) i a d : nth_error l i = Some a -> nth i l d = a.
Proof. intro E. erewrite nth_error_nth; eauto. Qed.

Lemma Forall2_set_nth {A B} (P Q : A -> B -> Prop) l m i a b : Forall2 P l m -> nth_error l i = Some a ->
  (forall j x y, nth_error l j = Some x -> nth_error m j = Some y -> j <> i -> P x y -> Q x y) -> Q a b ->
  Forall2 Q l (set_nth m i b).
Proof.
  intro Hf. revert i. induction Hf as [|x y l m Hxy Hf IH]; intros i Hi Ho Hq; [destruct i; discriminate|]. destruct i as [|i]; cbn in *.
  - injection Hi as ->. unfold set_nth. cbn. constructor; [exact Hq|]. clear -Hf Ho. assert (Hgen : forall j x y, nth_error l j = Some x -> nth_error m j = Some y -> P x y -> Q x y) by (intros j x0 y0 H1 H2; apply (Ho (S j)); auto).
    clear Ho. revert Hgen. induction Hf as [|u v l m Huv Hf IH]; intro Hgen; constructor; [apply (Hgen 0); auto|]. apply IH. intros j. apply (Hgen (S j)).
  - unfold set_nth. cbn. constructor; [apply (Ho 0); auto|]. apply IH; auto. intros j x0 y0 H1 H2 Hn. apply (Ho (S j)); auto.
Qed.

Lemma Forall2_impl2 {A B} (P Q : A -> B -> Prop) l m : (forall a b, P a b -> Q a b) -> Forall2 P l m -> Forall2 Q l m.
Proof. intros H. induction 1; constructor; auto. Qed.

Lemma rep_mono n0 h h' c s : next h <= next h' -> (forall x, x < next h -> cells h' x = cells h x) -> rep n0 h c s -> rep n0 h' c s.
Proof.
  intros Hn Hx (l & d & -> & Hl & Hc & Hd & Hk & Hb). exists l, d. split; [reflexivity|]. split; [lia|]. split; [rewrite Hx by lia; exact Hc|]. split; [exact Hd|]. split; [exact Hk|].
  intros k v Hv q Hq. specialize (Hb k v Hv q Hq). lia.
Qed.

Lemma put_same s k v : put s k v k = v.
Proof. unfold put. destruct (str_eq_dec k k); congruence. Qed.
Lemma put_other s k v k' : k' <> k -> put s k v k' = s k'.
Proof. unfold put. destruct (str_eq_dec k' k); congruence. Qed.

(** Overwriting one context. *)
Lemma inv_poke h0 old h env ss i l d' s' :
  inv h0 old h env ss -> nth_error env i = Some (HRef l) -> NoDup (dkeys d') -> (forall k, dget str_eq_dec d' k = s' k) -> (forall k v, s' k = Some v -> below (next h) v) ->
  inv h0 old (fst (poke l (OCtx d') h)) env (set_nth ss i s').
Proof.
  intros [I1 I2 I3 I4 I5 I6] Hi Hnd Hk Hb.
  assert (Hl : next h0 <= l < next h).
  { destruct (Forall2_nth _ _ _ i I4) as (a & b & Ha & Hb' & (l1 & d1 & -> & Hl1 & _)); [apply nth_error_Some; congruence|]. congruence. }
  cbn. constructor; cbn.
  - intros x Hx. cbn in *. unfold upd. destruct (Nat.eq_dec x l); [lia|]. apply I1, Hx.
  - exact I2.
  - intros x Hx. unfold upd. destruct (Nat.eq_dec x l); [lia|]. apply I3, Hx.
  - eapply Forall2_set_nth; [exact I4|exact Hi| |].
    + intros j x y Hx Hy Hne (l1 & d1 & -> & Hl1 & Hc1 & Hr). exists l1, d1. split; [reflexivity|]. split; [exact Hl1|]. split; [|exact Hr]. cbn. unfold upd.
      destruct (Nat.eq_dec l1 l) as [->|]; [|exact Hc1]. exfalso. apply Hne. eapply NoDup_nth_error; [exact I5| |congruence]. apply nth_error_Some. congruence.
    + exists l, d'. split; [reflexivity|]. split; [exact Hl|]. split; [cbn; unfold upd; destruct (Nat.eq_dec l l); congruence|]. auto.
  - exact I5.
  - exact I6.
Qed.

(** Adding one object. *)
Lemma inv_alloc h0 old h env ss o : inv h0 old h env ss -> inv h0 old (fst (alloc o h)) env ss.
Proof.
  intros [I1 I2 I3 I4 I5 I6]. pose proof (frames_alloc o h I1) as Hf. destruct (alloc o h) as [h1 r]. cbn. destruct Hf as (F1 & F2 & F3). constructor; auto.
  - lia.
  - intros x Hx. rewrite F2 by lia. apply I3, Hx.
  - eapply Forall2_impl2; [|exact I4]. intros. eapply rep_mono; eauto.
  - intros v Hv q Hq. specialize (I6 v Hv q Hq). lia.
Qed.

Lemma NoDup_snoc {A} (l : list A) a : NoDup l -> ~ In a l -> NoDup (l ++ [a]).
Proof. intros Hl Ha. apply (@Permutation_NoDup A (a :: l) (l ++ [a])); [apply Permutation_cons_append|]. now constructor. Qed.

Lemma inv_add_ctx h0 old h env ss d s : inv h0 old h env ss -> NoDup (dkeys d) -> (forall k, dget str_eq_dec d k = s k) -> (forall k v, s k = Some v -> below (next h) v) ->
  inv h0 old (fst (alloc (OCtx d) h)) (env ++ [HRef (next h)]) (ss ++ [s]).
Proof.
  intros Hi Hnd Hk Hb. pose proof (inv_alloc h0 old h env ss (OCtx d) Hi) as Hi'. destruct Hi as [I1 I2 I3 I4 I5 I6]. destruct Hi' as [J1 J2 J3 J4 J5 J6]. constructor; auto.
  - apply Forall2_app; [exact J4|]. constructor; [|constructor]. exists (next h), d. cbn. split; [reflexivity|]. split; [lia|]. split; [unfold upd; destruct (Nat.eq_dec (next h) (next h)); congruence|]. split; [exact Hnd|]. split; [exact Hk|].
    intros k v Hv q Hq. specialize (Hb k v Hv q Hq). lia.
  - apply NoDup_snoc; [exact J5|]. intro Hin. apply In_nth_error in Hin. destruct Hin as [i Hi]. destruct (Forall2_nth _ _ _ i I4) as (a & b & Ha & _ & (l1 & d1 & -> & Hl1 & _)); [apply nth_error_Some; congruence|].
    rewrite Hi in Ha. injection Ha as <-. lia.
Qed.

Lemma dmem_dget d k : dmem str_eq_dec (d : dict pystr hv) k = match dget str_eq_dec d k with Some _ => true | None => false end.
Proof.
  destruct (dget str_eq_dec d k) as [v|] eqn:E.
  - apply dmem_In. eapply (dget_Some_key str_eq_dec). eauto.
  - destruct (dmem str_eq_dec d k) eqn:E'; [|reflexivity]. apply dmem_In in E'. apply dget_None in E. contradiction.
Qed.

Lemma run_op_inv h0 old h env ss op : inv h0 old h env ss -> op_ok (length env) op -> op_vals (next h0) op ->
  let '(h', env', o) := run_op op (h, env) in
  exists ss', spec_op (fun v => ~ old v) ss op o ss' /\ inv h0 (fun v => old v \/ o = OutVal v) h' env' ss' /\ length env' = length env + creates op.
Proof.
  intros Hi Hok Hv. pose proof Hi as [I1 I2 I3 I4 I5 I6]. pose proof (Forall2_len _ _ _ I4) as Hlen.
  assert (Hnew : forall h' env' ss' o, inv h0 old h' env' ss' -> (forall v, o = OutVal v -> below (next h') v) -> inv h0 (fun v => old v \/ o = OutVal v) h' env' ss').
  { intros h' env' ss' o [J1 J2 J3 J4 J5 J6] Ho. constructor; auto. intros v [Hov|Hov]; auto. }
  assert (Hctx : forall i, i < length env -> exists l d s, nth i env (HAtom (VInt 0)) = HRef l /\ nth_error env i = Some (HRef l) /\ nth_error ss i = Some s /\ l < next h /\
             cells h l = Some (OCtx d) /\ NoDup (dkeys d) /\ (forall k, dget str_eq_dec d k = s k) /\ (forall k v, s k = Some v -> below (next h) v)).
  { intros i Hi'. destruct (Forall2_nth _ _ _ i I4 Hi') as (a & s & Ha & Hs & (l & d & -> & Hl & Hc & Hnd & Hk & Hb)). exists l, d, s. repeat split; auto; [now apply nth_of_error|lia]. }
  destruct op as [|i k v|i k|i k|i k|i|i|i]; cbn in Hok.
  - cbn. exists (ss ++ [empty_store]). split; [rewrite Hlen; constructor|]. split; [|rewrite app_length; reflexivity]. apply Hnew; [|intros; discriminate].
    apply (inv_add_ctx h0 old h env ss [] empty_store Hi); [constructor|reflexivity|intros; discriminate].
  - destruct (Hctx i Hok) as (l & d & s & En & Ei & Es & Hl & Hc & Hnd & Hk & Hb). cbn. rewrite En. unfold with_value, ctx_values, hbind, deref, peek, ctx_poke, ret. rewrite Hc. cbn.
    exists (set_nth ss i (put s k (Some v))). split; [now constructor|]. split; [|lia]. apply Hnew; [|intros; discriminate].
    apply (inv_poke h0 old h env ss i l (dset str_eq_dec d k v) (put s k (Some v)) Hi Ei).
    + now apply dset_NoDup.
    + intro k'. rewrite dget_dset. unfold put. destruct (str_eq_dec k k') as [<-|Hne]; destruct (str_eq_dec _ _); try congruence; apply Hk.
    + intros k' v' Hp. unfold put in Hp. destruct (str_eq_dec k' k) as [->|Hne]; [|now apply (Hb k')]. injection Hp as <-. intros q Hq. destruct v as [a|lv]; [destruct Hq|]. destruct Hq as [<-|[]]. cbn in Hv. lia.
  - destruct (Hctx i Hok) as (l & d & s & En & Ei & Es & Hl & Hc & Hnd & Hk & Hb). cbn. rewrite En. unfold get_value_or_throw, has_value, ctx_values, hbind, deref, peek, ret, fail. rewrite Hc, dmem_dget, Hk.
    destruct (s k) as [v|] eqn:Esk.
    + rewrite Hc, Hk, Esk. exists ss. split; [econstructor; eauto|]. split; [|cbn; lia]. apply Hnew; [exact Hi|]. intros v' [= <-]. eauto.
    + exists ss. split; [econstructor; eauto|]. split; [|cbn; lia]. apply Hnew; [exact Hi|]. intros v'. discriminate.
  - destruct (Hctx i Hok) as (l & d & s & En & Ei & Es & Hl & Hc & Hnd & Hk & Hb). cbn. rewrite En. unfold has_value, ctx_values, hbind, deref, peek, ret. rewrite Hc, dmem_dget, Hk.
    exists ss. split; [econstructor; eauto|]. split; [|cbn; lia]. apply Hnew; [exact Hi|]. intros v'. discriminate.
  - destruct (Hctx i Hok) as (l & d & s & En & Ei & Es & Hl & Hc & Hnd & Hk & Hb). cbn. rewrite En. unfold ctx_remove, ctx_values, hbind, deref, peek, ret, fail. rewrite Hc, dmem_dget, Hk.
    destruct (s k) as [v|] eqn:Esk.
    + cbn. exists (set_nth ss i (put s k None)). split; [econstructor; eauto|]. split; [|lia]. apply Hnew; [|intros; discriminate].
      apply (inv_poke h0 old h env ss i l (ddel str_eq_dec d k) (put s k None) Hi Ei).
      * now apply ddel_NoDup.
      * intro k'. rewrite dget_ddel by exact Hnd. unfold put. destruct (str_eq_dec k k') as [<-|Hne]; destruct (str_eq_dec _ _); try congruence; apply Hk.
      * intros k' v' Hp. unfold put in Hp. destruct (str_eq_dec k' k); [discriminate|]. now apply (Hb k').
    + exists ss. split; [econstructor; eauto|]. split; [|cbn; lia]. apply Hnew; [exact Hi|]. intros v'. discriminate.
  - destruct (Hctx i Hok) as (l & d & s & En & Ei & Es & Hl & Hc & Hnd & Hk & Hb). cbn. rewrite En.
    destruct (s cached_colors_key) as [v|] eqn:Esk.
    + unfold cached_colors, get_value_or_throw, has_value, ctx_values, hbind, deref, peek, ret, fail. rewrite Hc, dmem_dget, Hk, Esk. rewrite Hc, dmem_dget, Hk, Esk, Hc.
      rewrite Hk, Esk. exists ss. split; [eapply spec_colors; eauto|]. split; [|cbn; lia]. apply Hnew; [exact Hi|]. intros v' [= <-]. eauto.
    + set (h1 := fst (alloc (ODict []) h)). assert (I1' : inv h0 old h1 env ss) by (apply inv_alloc, Hi).
      set (d' := dset str_eq_dec d cached_colors_key (HRef (next h))). set (h2 := fst (poke l (OCtx d') h1)).
      assert (C2 : cells h2 l = Some (OCtx d')) by (cbn; unfold upd; destruct (Nat.eq_dec l l); congruence).
      assert (E : cached_colors (HRef l) h = (h2, Ok (HRef (next h)))).
      { unfold cached_colors. unfold ctx_values at 1. unfold hbind at 1 2. cbn [deref peek]. rewrite Hc. cbn [ret]. rewrite dmem_dget, Hk, Esk.
        unfold hbind at 1. unfold hbind at 1. change (alloc (ODict []) h) with (h1, Ok (next h)). cbn [ctx_poke]. fold d'. change (poke l (OCtx d') h1) with (h2, Ok tt). cbn [ret].
        unfold get_value_or_throw, has_value, ctx_values, hbind, deref, peek, ret, fail. rewrite C2, dmem_dget. unfold d' at 1. rewrite dget_dset_same. rewrite C2. unfold d'. rewrite dget_dset_same. reflexivity. }
      rewrite E. exists (set_nth ss i (put s cached_colors_key (Some (HRef (next h))))). split; [|split; [|cbn; lia]].
      * apply spec_colors_new; auto. intro Hold. specialize (I6 _ Hold (next h) (or_introl eq_refl)). lia.
      * apply Hnew; [|intros v' [= <-] q [<-|[]]; cbn; lia]. apply (inv_poke h0 old h1 env ss i l d' _ I1' Ei).
        -- now apply dset_NoDup.
        -- intro k'. unfold d'. rewrite dget_dset. unfold put. destruct (str_eq_dec cached_colors_key k') as [<-|Hne]; destruct (str_eq_dec _ _); try congruence; apply Hk.
        -- intros k' v' Hp. unfold put in Hp. destruct (str_eq_dec k' cached_colors_key) as [->|Hne]; [injection Hp as <-; intros q [<-|[]]; cbn; lia|]. intros q Hq. specialize (Hb k' v' Hp q Hq). cbn. lia.
  - destruct (Hctx i Hok) as (l & d & s & En & Ei & Es & Hl & Hc & Hnd & Hk & Hb). cbn [run_op]. rewrite En. unfold shallow_copy. unfold hbind at 1. cbn [deref peek]. rewrite Hc.
    cbn. exists (ss ++ [s]). split; [rewrite Hlen; now constructor|]. split; [|rewrite app_length; reflexivity]. apply Hnew; [|intros; discriminate].
    apply (inv_add_ctx h0 old h env ss d s Hi); auto.
  - destruct (Hctx i Hok) as (l & d & s & En & Ei & Es & Hl & Hc & Hnd & Hk & Hb). cbn. rewrite En. cbn. unfold hbind, peek, fail. rewrite Hc. cbn.
    exists ss. split; [econstructor; eauto|]. split; [|lia]. apply Hnew; [exact Hi|]. intros v'. discriminate.
Qed.

Lemma run_ops_inv h0 ops : forall old h env ss, inv h0 old h env ss -> ops_ok (length env) ops -> Forall (op_vals (next h0)) ops ->
  let '(h', env', os) := run_ops ops (h, env) in
  exists ss' old', spec_ops old ss ops os ss' /\ inv h0 old' h' env' ss'.
Proof.
  induction ops as [|op ops IH]; intros old h env ss Hi Hok Hv; cbn [run_ops].
  - exists ss, old. split; [constructor|exact Hi].
  - inversion Hv as [|? ? Hv1 Hv2]; subst. destruct Hok as [Ho1 Ho2]. pose proof (run_op_inv h0 old h env ss op Hi Ho1 Hv1) as H1. destruct (run_op op (h, env)) as [[h1 env1] o]. destruct H1 as (ss1 & Hs1 & Hi1 & Hl1).
    rewrite <- Hl1 in Ho2. pose proof (IH _ _ _ _ Hi1 Ho2 Hv2) as H2. destruct (run_ops ops (h1, env1)) as [[h2 env2] os]. destruct H2 as (ss2 & old2 & Hs2 & Hi2).
    exists ss2, old2. split; [econstructor; eauto|exact Hi2].
Qed.

Lemma contexts_proof h ops : (forall l, next h <= l -> cells h l = None) -> ops_ok 0 ops -> Forall (op_vals (next h)) ops ->
  let '(h', env, os) := run_ops ops (h, []) in
  exists ss, spec_ops (fun v => forall l, In l (vref v) -> l < next h) [] ops os ss /\
    Forall2 (fun c s => exists l d, c = HRef l /\ cells h' l = Some (OCtx d) /\ forall k, dget str_eq_dec d k = s k) env ss /\
    NoDup env /\ (forall x, x < next h -> cells h' x = cells h x).
Proof.
  intros Ha Hok Hv.
  assert (Hi : inv h (fun v => forall l, In l (vref v) -> l < next h) h [] []) by (constructor; auto; constructor).
  pose proof (run_ops_inv h ops _ _ _ _ Hi Hok Hv) as Hr. destruct (run_ops ops (h, [])) as [[h' env] os]. destruct Hr as (ss & old' & Hs & [I1 I2 I3 I4 I5 I6]).
  exists ss. split; [exact Hs|]. split; [|auto]. eapply Forall2_impl2; [|exact I4]. intros c s (l & d & -> & Hl & Hc & Hnd & Hk & _). eauto.
Qed.
