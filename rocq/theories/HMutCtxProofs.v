From Verif Require Import Py PyFacts LogModel MutModel HeapModel HeapSpec HeapProofs CtxModel CtxProofs PipeModel HMutModel HMutSpec HMutProofs.
From Coq Require Import Lia.

(** Computations on objects that leave contexts alone. *)
Definition csafe {A} (m : H A) : Prop := forall h h' r, above h -> m h = (h', r) -> above h' /\ next h <= next h' /\ contexts_kept h h'.
Lemma kept_refl h : contexts_kept h h.
Proof. intros x d Hx. exact Hx. Qed.
Lemma kept_trans a b c : contexts_kept a b -> contexts_kept b c -> contexts_kept a c.
Proof. intros H1 H2 x d Hx. auto. Qed.
Lemma cs_pure {A} (r : result A) : csafe (fun h => (h, r)).
Proof. intros h h' r' Ha [= <- <-]. repeat split; auto using kept_refl. Qed.
Lemma cs_ret {A} (a : A) : csafe (ret a).
Proof. apply cs_pure. Qed.
Lemma cs_fail {A} e : csafe (@fail A e).
Proof. apply cs_pure. Qed.
Lemma cs_lift {A} (r : result A) : csafe (lift_r r).
Proof. apply cs_pure. Qed.
Lemma cs_bind {A B} (m : H A) (f : A -> H B) : csafe m -> (forall a, csafe (f a)) -> csafe (hbind m f).
Proof.
  intros Hm Hf h h' r Ha E. unfold hbind in E. destruct (m h) as [h1 [a|e]] eqn:E1.
  - destruct (Hm _ _ _ Ha E1) as (A1 & N1 & K1). destruct (Hf a _ _ _ A1 E) as (A2 & N2 & K2). repeat split; [exact A2|lia|eapply kept_trans; eauto].
  - injection E as <- <-. eapply Hm; eauto.
Qed.
Lemma cs_peek l : csafe (peek l).
Proof. intros h h' r Ha [= <- <-]. repeat split; auto using kept_refl. Qed.
Lemma cs_deref v : csafe (deref v).
Proof. destruct v; [apply cs_fail|apply cs_peek]. Qed.
Lemma cs_alloc o : csafe (alloc o).
Proof.
  intros h h' r Ha E. destruct (alloc_run o h Ha) as (h1 & E1 & C & A & N & S). rewrite E1 in E. injection E as <- <-. repeat split; [exact A|lia|].
  intros x d Hx. rewrite S; [exact Hx|]. eapply cell_lt; eauto.
Qed.
Lemma cs_as_list v : csafe (as_list v).
Proof. apply cs_bind; [apply cs_deref|]. intros []; first [apply cs_ret|apply cs_fail]. Qed.
Lemma cs_as_dict v : csafe (as_dict v).
Proof. apply cs_bind; [apply cs_deref|]. intros []; first [apply cs_ret|apply cs_fail]. Qed.
Lemma poke_other h l o o' : above h -> cells h l = Some o' -> (forall d, o' <> OCtx d) -> let h' := mkHeap (upd (cells h) l (Some o)) (next h) in above h' /\ next h <= next h' /\ contexts_kept h h'.
Proof.
  intros Ha Hl Hno h'. repeat split; [|cbn; lia|].
  - apply above_upd; [exact Ha|]. eapply cell_lt; eauto.
  - intros x d Hx. cbn. unfold upd. destruct (Nat.eq_dec x l) as [->|]; [|exact Hx]. exfalso. rewrite Hl in Hx. injection Hx as ->. eapply Hno. reflexivity.
Qed.
Lemma cs_list_change f v : csafe (list_change f v).
Proof.
  destruct v as [a|l]; [apply cs_fail|]. intros h h' r Ha E. unfold list_change, hbind, as_list, hbind, deref, peek in E. destruct (cells h l) as [[]|] eqn:El; cbn in E; injection E as <- <-; try (repeat split; auto using kept_refl; fail).
  eapply poke_other; [exact Ha|exact El|congruence].
Qed.
Ltac cs := repeat first [apply cs_ret | apply cs_fail | apply cs_lift | apply cs_deref | apply cs_as_list | apply cs_as_dict | apply cs_alloc | apply cs_list_change | apply cs_bind; [|intro]
  | match goal with |- csafe (match ?o with _ => _ end) => destruct o end].
Lemma cs_log_traces v : csafe (log_traces v).  Proof. unfold log_traces. cs. Qed.
Lemma cs_trace_events v : csafe (trace_events v).  Proof. unfold trace_events. cs. Qed.
Lemma cs_event_payload v : csafe (event_payload v).  Proof. unfold event_payload. cs. Qed.
Lemma cs_new_trace : csafe new_trace.  Proof. unfold new_trace. cs. Qed.
Lemma cs_new_log : csafe new_log.  Proof. unfold new_log. cs. Qed.
Lemma cs_named n : csafe (new_named_event n).  Proof. unfold new_named_event. cs. Qed.
Lemma cs_trace_append t e : csafe (trace_append t e).  Proof. unfold trace_append. cs. Qed.
Lemma cs_trace_insert0 t e : csafe (trace_insert0 t e).  Proof. unfold trace_insert0. cs. Qed.
Lemma cs_log_append t e : csafe (log_append t e).  Proof. unfold log_append. cs. Qed.
Lemma cs_read_event v : csafe (read_event v).  Proof. unfold read_event. apply cs_bind; [apply cs_event_payload|intro]. cs. Qed.
Lemma cs_hiter {A} (f : A -> H unit) l : (forall x, csafe (f x)) -> csafe (hiter f l).
Proof. intro Hf. induction l; cbn; [apply cs_ret|apply cs_bind; auto]. Qed.
Lemma cs_change_event mut v : csafe (change_event mut v).
Proof.
  unfold change_event. apply cs_bind; [apply cs_event_payload|]. intros [a|l]; [cs|].
  intros h h' r Ha E. unfold as_dict, hbind at 1 2, deref, peek in E. destruct (cells h l) as [[]|] eqn:El; cbn in E; try (injection E as <- <-; repeat split; auto using kept_refl; fail).
  unfold lift_r, hbind in E. destruct (flat_payload d) as [e|]; [|injection E as <- <-; repeat split; auto using kept_refl]. destruct (mut e) as [e'|]; [|injection E as <- <-; repeat split; auto using kept_refl].
  injection E as <- <-. eapply poke_other; [exact Ha|exact El|congruence].
Qed.
Lemma cs_filter_events sel v : csafe (h_filter_events sel v).
Proof.
  unfold h_filter_events. apply cs_bind; [apply cs_new_log|intro]. apply cs_bind; [apply cs_log_traces|intro]. apply cs_bind; [|intro; apply cs_ret]. apply cs_hiter. intro tr.
  apply cs_bind; [apply cs_new_trace|intro]. apply cs_bind; [apply cs_trace_events|intro]. apply cs_bind.
  - apply cs_hiter. intro. apply cs_bind; [apply cs_read_event|intro]. apply cs_bind; [apply cs_lift|intros []]; [apply cs_trace_append|apply cs_ret].
  - intro. apply cs_bind; [apply cs_trace_events|intro kept]. destruct (0 <? length kept); [apply cs_log_append|apply cs_ret].
Qed.
Lemma cs_remove_empty m v : csafe (h_remove_empty_traces m v).
Proof.
  unfold h_remove_empty_traces. apply cs_bind; [apply cs_new_log|intro]. apply cs_bind; [apply cs_log_traces|intro]. apply cs_bind; [|intro; apply cs_ret]. apply cs_hiter. intro tr.
  apply cs_bind; [apply cs_trace_events|intro es]. destruct (m <? Z.of_nat (length es))%Z; [apply cs_log_append|apply cs_ret].
Qed.
Lemma cs_preprocess mut v : csafe (h_preprocess_events mut v).
Proof. unfold h_preprocess_events. apply cs_bind; [apply cs_log_traces|intro]. apply cs_hiter. intro. apply cs_bind; [apply cs_trace_events|intro]. apply cs_hiter. intro. apply cs_change_event. Qed.
Lemma cs_artificial v : csafe (h_add_artificial v).
Proof.
  unfold h_add_artificial. apply cs_bind; [apply cs_log_traces|intro]. apply cs_hiter. intro. apply cs_bind; [apply cs_named|intro]. apply cs_bind; [apply cs_trace_append|intro]. apply cs_bind; [apply cs_named|intro]. apply cs_trace_insert0.
Qed.

(** The same for computations of a part.  [asafe] needs no closed heap, only a proper one. *)
Section Act.
  Context {X : Type}.
  Definition asafe {A} (m : act X A) : Prop := forall w w' r, above (w_heap w) -> m w = (w', r) -> above (w_heap w') /\ next (w_heap w) <= next (w_heap w') /\ contexts_kept (w_heap w) (w_heap w').
  Lemma as_lift {A} (m : H A) : csafe m -> asafe (lift m).
  Proof. intros Hm w w' r Ha E. unfold lift in E. destruct (m (w_heap w)) as [h1 r1] eqn:E1. injection E as <- <-. cbn. eapply Hm; eauto. Qed.
  Lemma as_ret {A} (a : A) : asafe (aret a).
  Proof. intros w w' r Ha [= <- <-]. repeat split; auto using kept_refl. Qed.
  Lemma as_bind {A B} (m : act X A) (f : A -> act X B) : asafe m -> (forall a, asafe (f a)) -> asafe (abind m f).
  Proof.
    intros Hm Hf h h' r Ha E. unfold abind in E. destruct (m h) as [h1 [a|e]] eqn:E1.
    - destruct (Hm _ _ _ Ha E1) as (A1 & N1 & K1). destruct (Hf a _ _ _ A1 E) as (A2 & N2 & K2). repeat split; [exact A2|lia|eapply kept_trans; eauto].
    - injection E as <- <-. eapply Hm; eauto.
  Qed.
  Lemma as_iter {A} (f : A -> act X unit) l : (forall x, asafe (f x)) -> asafe (aiter f l).
  Proof. intro Hf. induction l; cbn; [apply as_ret|apply as_bind; auto]. Qed.

  Lemma ctx_values_run h c d : cells h c = Some (OCtx d) -> ctx_values (HRef c) h = (h, Ok d).
  Proof. intro Hc. unfold ctx_values, hbind, deref, peek. now rewrite Hc. Qed.
  Lemma ctx_log_run h c d : cells h c = Some (OCtx d) -> ctx_log (HRef c) h = (h, match dget str_eq_dec d log_key with Some v => Ok v | None => Err ValueError end).
  Proof.
    intro Hc. unfold ctx_log, get_value_or_throw, has_value. unfold hbind at 1 2. rewrite (ctx_values_run _ _ _ Hc). cbn [ret]. rewrite dmem_dget.
    destruct (dget str_eq_dec d log_key) as [v|] eqn:E; [|reflexivity]. unfold hbind. rewrite (ctx_values_run _ _ _ Hc), E. reflexivity.
  Qed.
  Lemma with_value_run h c d k v : cells h c = Some (OCtx d) -> with_value k v (HRef c) h = (mkHeap (upd (cells h) c (Some (OCtx (dset str_eq_dec d k v)))) (next h), Ok (HRef c)).
  Proof. intro Hc. unfold with_value. unfold hbind at 1. rewrite (ctx_values_run _ _ _ Hc). reflexivity. Qed.

  Lemma same_log_keeps (f : hv -> act X hv) : (forall l, asafe (f l)) -> keeps_context (same_log_part f) /\ needs_log (same_log_part f).
  Proof.
    intro Hf. split.
    - intros w w' r c d [Ha _] Hc E. unfold same_log_part, abind at 1, lift at 1 in E. rewrite (ctx_log_run _ _ _ Hc) in E.
      destruct (dget str_eq_dec d log_key) as [lg|]; cbn in E; [|injection E as <- <-; exact Hc]. destruct w as [h0 cl rest]. cbn [w_heap w_colors w_rest] in *.
      unfold abind in E. destruct (f lg _) as [w1 [lg'|e]] eqn:Ef; destruct (Hf lg (mkWorld h0 cl rest) _ _ Ha Ef) as (A1 & N1 & K1); [|injection E as <- <-; apply K1; exact Hc].
      pose proof (K1 _ _ Hc) as Hc1. cbn in Hc1. unfold lift in E. rewrite (with_value_run _ _ _ _ _ Hc1) in E. injection E as <- <-. split; [reflexivity|]. exists lg'. cbn. unfold upd. destruct (Nat.eq_dec c c); [reflexivity|contradiction].
    - intros w c d _ Hc Hd. unfold same_log_part, abind at 1, lift at 1. rewrite (ctx_log_run _ _ _ Hc), Hd. eexists. split; [reflexivity|]. cbn. split; auto.
  Qed.
  Lemma inplace_keeps (f : hv -> act X unit) : (forall l, asafe (f l)) -> needs_log (inplace_part f) /\
    forall w w' r c d, closed (w_heap w) -> cells (w_heap w) c = Some (OCtx d) -> inplace_part f (HRef c) w = (w', r) ->
    cells (w_heap w') c = Some (OCtx d) /\ forall v, r = Ok v -> v = HRef c.
  Proof.
    intro Hf. split.
    - intros w c d _ Hc Hd. unfold inplace_part, abind at 1, lift at 1. rewrite (ctx_log_run _ _ _ Hc), Hd. eexists. split; [reflexivity|]. cbn. split; auto.
    - intros w w' r c d [Ha _] Hc E. unfold inplace_part, abind at 1, lift at 1 in E. rewrite (ctx_log_run _ _ _ Hc) in E.
      destruct (dget str_eq_dec d log_key) as [lg|]; cbn in E; [|injection E as <- <-; split; [exact Hc|discriminate]]. destruct w as [h0 cl rest]. cbn [w_heap w_colors w_rest] in *.
      unfold abind in E. destruct (f lg _) as [w1 [u|e]] eqn:Ef; destruct (Hf lg (mkWorld h0 cl rest) _ _ Ha Ef) as (A1 & N1 & K1); injection E as <- <-; (split; [apply K1; exact Hc|]); [now intros v [= <-]|discriminate].
  Qed.
  Lemma new_ctx_run h : above h -> exists h', new_ctx h = (h', Ok (HRef (next h))) /\ cells h' (next h) = Some (OCtx []) /\ above h' /\ next h' = S (next h) /\ (forall x, x < next h -> cells h' x = cells h x).
  Proof. intro Ha. unfold new_ctx. destruct (alloc_run (OCtx []) h Ha) as (h1 & E & C & A & N & S). exists h1. erewrite hbind_ok by exact E. repeat split; auto. Qed.

  Lemma fresh_log_replaces (f : hv -> act X hv) : (forall l, asafe (f l)) -> replaces_context (fresh_log_part f) /\ needs_log (fresh_log_part f).
  Proof.
    intro Hf. split.
    - intros w w' r c d [Ha _] Hc E. destruct w as [h0 cl rest]. cbn [w_heap w_colors w_rest] in *. unfold fresh_log_part, abind at 1, lift at 1 in E. cbn [w_heap w_colors w_rest] in E.
      destruct (new_ctx_run h0 Ha) as (h1 & E1 & C1 & A1 & N1 & S1). rewrite E1 in E. pose proof (cell_lt _ _ _ (Ha : above h0) Hc) as Hlt.
      assert (Hc1 : cells h1 c = Some (OCtx d)) by (rewrite S1 by exact Hlt; exact Hc).
      unfold abind at 1, lift at 1 in E. cbn [w_heap w_colors w_rest] in E. rewrite (ctx_log_run _ _ _ Hc1) in E.
      destruct (dget str_eq_dec d log_key) as [lg|]; [|injection E as <- <-; cbn; split; [exact Hc1|discriminate]].
      unfold abind in E. destruct (f lg _) as [w1 [lg'|e]] eqn:Ef; destruct (Hf lg (mkWorld h1 cl rest) _ _ A1 Ef) as (A2 & N2 & K2); cbn in K2; [|injection E as <- <-; split; [apply K2; exact Hc1|discriminate]].
      pose proof (K2 _ _ C1) as C2. unfold lift in E. rewrite (with_value_run _ _ _ _ _ C2) in E. injection E as <- <-. cbn. unfold upd. destruct (Nat.eq_dec c (next h0)); [lia|].
      split; [apply K2; exact Hc1|]. intros v [= <-]. exists (next h0), lg'. split; [reflexivity|]. split; [lia|]. destruct (Nat.eq_dec (next h0) (next h0)); [reflexivity|contradiction].
    - intros w c d [Ha _] Hc Hd. destruct w as [h0 cl rest]. cbn [w_heap w_colors w_rest] in *. unfold fresh_log_part, abind at 1, lift at 1. cbn [w_heap w_colors w_rest].
      destruct (new_ctx_run h0 Ha) as (h1 & E1 & C1 & A1 & N1 & S1). rewrite E1. pose proof (cell_lt _ _ _ (Ha : above h0) Hc) as Hlt.
      assert (Hc1 : cells h1 c = Some (OCtx d)) by (rewrite S1 by exact Hlt; exact Hc).
      unfold abind at 1, lift at 1. cbn [w_heap w_colors w_rest]. rewrite (ctx_log_run _ _ _ Hc1), Hd. eexists. split; [reflexivity|]. cbn. split; [lia|exact S1].
  Qed.

  Lemma preprocess_names_replaces f : replaces_context (@PreprocessEventsNames X f) /\ needs_log (@PreprocessEventsNames X f).
  Proof.
    split.
    - intros w w' r c d [Ha _] Hc E. unfold PreprocessEventsNames, abind at 1, lift at 1 in E. rewrite (ctx_log_run _ _ _ Hc) in E.
      destruct (dget str_eq_dec d log_key) as [lg|]; cbn in E; [|injection E as <- <-; split; [exact Hc|discriminate]]. destruct w as [h0 cl rest]. cbn [w_heap w_colors w_rest] in *.
      unfold abind at 1, lift at 1 in E. cbn [w_heap w_colors w_rest] in E. destruct (h_preprocess_events _ lg h0) as [h1 [u|e]] eqn:Ef; destruct (cs_preprocess _ _ _ _ _ (Ha : above h0) Ef) as (A1 & N1 & K1); [|injection E as <- <-; split; [apply K1; exact Hc|discriminate]].
      unfold abind, lift in E. cbn [w_heap w_colors w_rest] in E. destruct (new_ctx_run h1 A1) as (h2 & E2 & C2 & A2 & N2 & S2). rewrite E2 in E. cbn [w_heap w_colors w_rest] in E.
      rewrite (with_value_run _ _ _ _ _ C2) in E. injection E as <- <-. pose proof (cell_lt _ _ _ A1 (K1 _ _ Hc)) as Hlt. cbn. unfold upd. destruct (Nat.eq_dec c (next h1)); [lia|].
      split; [rewrite S2 by exact Hlt; apply K1; exact Hc|]. intros v [= <-]. exists (next h1), lg. split; [reflexivity|]. split; [lia|]. destruct (Nat.eq_dec (next h1) (next h1)); [reflexivity|contradiction].
    - intros w c d [Ha _] Hc Hd. unfold PreprocessEventsNames, abind at 1, lift at 1. rewrite (ctx_log_run _ _ _ Hc), Hd. eexists. split; [reflexivity|]. cbn. split; auto.
  Qed.

  Lemma substitute_keeps (subst : hv -> act X hv) : (forall l, asafe (subst l)) -> keeps_context (SubstituteUnderlyingEvents subst) /\ needs_log (SubstituteUnderlyingEvents subst).
  Proof.
    intro Hf.
    assert (Hnl : forall h0, above h0 -> exists h1 nl, new_log h0 = (h1, Ok nl) /\ above h1 /\ old_kept h0 h1).
    { intros h0 Ha. destruct (new_log_run h0 Ha) as (h1 & l & t & a & e & c & p & g & E1 & A1 & K1 & _). eauto. }
    split.
    - intros w w' r c d [Ha _] Hc E. destruct w as [h0 cl rest]. cbn [w_heap w_colors w_rest] in *. unfold SubstituteUnderlyingEvents, abind at 1, lift at 1 in E. cbn [w_heap w_colors w_rest] in E.
      destruct (Hnl h0 Ha) as (h1 & nl & E1 & A1 & [N1 S1]). rewrite E1 in E. pose proof (cell_lt _ _ _ (Ha : above h0) Hc) as Hlt.
      assert (Hc1 : cells h1 c = Some (OCtx d)) by (rewrite S1 by exact Hlt; exact Hc).
      unfold abind at 1, lift at 1 in E. cbn [w_heap w_colors w_rest] in E. rewrite (ctx_log_run _ _ _ Hc1) in E.
      destruct (dget str_eq_dec d log_key) as [lg|]; [|injection E as <- <-; exact Hc1].
      unfold abind at 1, lift at 1 in E. cbn [w_heap w_colors w_rest] in E. destruct (log_traces lg h1) as [h2 [ts|e]] eqn:E2; destruct (cs_log_traces _ _ _ _ A1 E2) as (A2 & N2 & K2); [|injection E as <- <-; apply K2; exact Hc1].
      unfold abind in E. destruct (aiter _ ts _) as [w3 [u|e]] eqn:E3.
      + assert (Hs : above (w_heap w3) /\ next h2 <= next (w_heap w3) /\ contexts_kept h2 (w_heap w3)).
        { refine (as_iter (fun t => abind (subst t) (fun t' => lift (log_append nl t'))) ts _ _ _ _ _ E3); [|exact A2]. intro. apply as_bind; [apply Hf|intro]. apply as_lift. apply cs_log_append. }
        destruct Hs as (A3 & N3 & K3). pose proof (K3 _ _ (K2 _ _ Hc1)) as Hc3. unfold lift in E. rewrite (with_value_run _ _ _ _ _ Hc3) in E. injection E as <- <-. split; [reflexivity|]. exists nl. cbn. unfold upd. destruct (Nat.eq_dec c c); [reflexivity|contradiction].
      + assert (Hs : above (w_heap w3) /\ next h2 <= next (w_heap w3) /\ contexts_kept h2 (w_heap w3)).
        { refine (as_iter (fun t => abind (subst t) (fun t' => lift (log_append nl t'))) ts _ _ _ _ _ E3); [|exact A2]. intro. apply as_bind; [apply Hf|intro]. apply as_lift. apply cs_log_append. }
        destruct Hs as (A3 & N3 & K3). injection E as <- <-. apply K3, K2. exact Hc1.
    - intros w c d [Ha _] Hc Hd. destruct w as [h0 cl rest]. cbn [w_heap w_colors w_rest] in *. unfold SubstituteUnderlyingEvents, abind at 1, lift at 1. cbn [w_heap w_colors w_rest].
      destruct (Hnl h0 Ha) as (h1 & nl & E1 & A1 & [N1 S1]). rewrite E1. pose proof (cell_lt _ _ _ (Ha : above h0) Hc) as Hlt.
      assert (Hc1 : cells h1 c = Some (OCtx d)) by (rewrite S1 by exact Hlt; exact Hc).
      unfold abind at 1, lift at 1. cbn [w_heap w_colors w_rest]. rewrite (ctx_log_run _ _ _ Hc1), Hd. eexists. split; [reflexivity|]. cbn. split; [lia|exact S1].
  Qed.

  Lemma as_variants (split : hv -> act X (list (list hv))) : (forall l, asafe (split l)) -> forall l, asafe (abind (split l) (fun gs => abind (lift new_log) (fun nl =>
      abind (lift (hiter (fun g => match g with t :: _ => log_append nl t | [] => fail IndexError end) gs)) (fun _ => aret nl)))).
  Proof.
    intros Hs l. apply as_bind; [apply Hs|intro gs]. apply as_bind; [apply as_lift, cs_new_log|intro nl]. apply as_bind; [|intro; apply as_ret]. apply as_lift, cs_hiter. intros [|t g]; [apply cs_fail|apply cs_log_append].
  Qed.
End Act.

(** End to end: what the log in the resulting context shows. *)
Lemma looks_ctx h h' : (forall x o, cells h x = Some o -> (forall d, o <> OCtx d) -> cells h' x = Some o) ->
  (forall v t, looks h v t -> looks h' v t) /\ (forall vs ts, looks_all h vs ts -> looks_all h' vs ts) /\ (forall d td, looks_dict h d td -> looks_dict h' d td).
Proof.
  intro He.
  assert (Hx : forall x o, cells h x = Some o -> match o with OCtx _ => True | _ => cells h' x = Some o end) by (intros x [] Hc; try exact I; apply He; auto; discriminate).
  apply looks_mutind; intros; repeat match goal with H : cells h _ = Some _ |- _ => apply Hx in H end; econstructor; eauto.
Qed.
Lemma shows_ctx h h' v L : (forall x o, cells h x = Some o -> (forall d, o <> OCtx d) -> cells h' x = Some o) -> shows h v L -> shows h' v L.
Proof. intros He (t & Hl & E). exists t. split; [|exact E]. now apply (looks_ctx h h'). Qed.
Lemma shows_ctx_poke h c d d' v L : cells h c = Some (OCtx d) -> shows h v L -> shows (mkHeap (upd (cells h) c (Some (OCtx d'))) (next h)) v L.
Proof.
  intros Hc. apply shows_ctx. intros x o Hx Hno. cbn. unfold upd. destruct (Nat.eq_dec x c) as [->|]; [|exact Hx]. exfalso. rewrite Hc in Hx. injection Hx as <-. eapply Hno. reflexivity.
Qed.
Lemma closed_new_ctx h h1 : closed h -> new_ctx h = (h1, Ok (HRef (next h))) -> closed h1.
Proof. intros Hc E. assert (Hh : h1 = fst (alloc (OCtx []) h)) by (cbn in E; injection E as <-; reflexivity). subst h1. apply closed_alloc; [exact Hc|intros x []]. Qed.

Section EndToEnd.
  Context {X : Type}.
  Lemma fresh_filter_proof sel (w : world X) c d lg L : closed (w_heap w) -> cells (w_heap w) c = Some (OCtx d) -> dget str_eq_dec d log_key = Some lg -> shows (w_heap w) lg L ->
    exists w' r, fresh_log_part (fun l => lift (h_filter_events sel l)) (HRef c) w = (w', r) /\ old_kept (w_heap w) (w_heap w') /\
    match filter_events sel L with
    | Ok L' => exists c' l', r = Ok (HRef c') /\ next (w_heap w) <= c' /\ cells (w_heap w') c' = Some (OCtx [(log_key, HRef l')]) /\ shows (w_heap w') (HRef l') L'
    | Err e => r = Err e end.
  Proof.
    destruct w as [h0 cl rest]. cbn [w_heap w_colors w_rest]. intros Hcl Hc Hd Hs. assert (Ha : above h0) by exact (proj1 Hcl).
    unfold fresh_log_part. unfold abind at 1, lift at 1. cbn [w_heap w_colors w_rest]. destruct (new_ctx_run h0 Ha) as (h1 & E1 & C1 & A1 & N1 & S1). rewrite E1. pose proof (cell_lt _ _ _ Ha Hc) as Hlt.
    assert (Hc1 : cells h1 c = Some (OCtx d)) by (rewrite S1 by exact Hlt; exact Hc).
    unfold abind at 1, lift at 1. cbn [w_heap w_colors w_rest]. rewrite (ctx_log_run _ _ _ Hc1), Hd.
    assert (Hs1 : shows h1 lg L). { apply (shows_ctx h0); [|exact Hs]. intros x o Hx _. rewrite S1 by (eapply cell_lt; eauto). exact Hx. }
    destruct (filter_events_proof sel h1 lg L (closed_new_ctx _ _ Hcl E1) Hs1) as (ps & h2 & r & _ & _ & E2 & [K1 K2] & M).
    unfold abind at 1, lift at 1. cbn [w_heap w_colors w_rest]. rewrite E2. destruct (filter_events sel L) as [L'|e].
    - destruct M as (l' & ts' & -> & B & Sh & _). assert (C2 : cells h2 (next h0) = Some (OCtx [])) by (rewrite K2 by lia; exact C1).
      unfold lift. cbn [w_heap w_colors w_rest]. rewrite (with_value_run _ _ _ _ _ C2). eexists _, _. split; [reflexivity|]. cbn [w_heap]. split.
      + split; [cbn; lia|]. intros x Hx. cbn. unfold upd. destruct (Nat.eq_dec x (next h0)); [lia|]. rewrite K2 by lia. apply S1. exact Hx.
      + exists (next h0), l'. split; [reflexivity|]. split; [lia|]. split; [cbn; unfold upd; destruct (Nat.eq_dec (next h0) (next h0)); [reflexivity|contradiction]|]. eapply shows_ctx_poke; eauto.
    - subst r. eexists _, _. split; [reflexivity|]. cbn [w_heap]. split; [|reflexivity]. split; [lia|]. intros x Hx. rewrite K2 by lia. apply S1. exact Hx.
  Qed.

  Lemma same_filter_proof (f : hv -> H hv) (L' : result eventlog) (w : world X) c d lg : closed (w_heap w) -> cells (w_heap w) c = Some (OCtx d) -> dget str_eq_dec d log_key = Some lg ->
    (exists h' r, f lg (w_heap w) = (h', r) /\ old_kept (w_heap w) h' /\ match L' with Ok L' => exists l', r = Ok (HRef l') /\ shows h' (HRef l') L' | Err e => r = Err e end) ->
    exists w' r, same_log_part (fun l => lift (f l)) (HRef c) w = (w', r) /\ (forall x, x < next (w_heap w) -> x <> c -> cells (w_heap w') x = cells (w_heap w) x) /\
    match L' with
    | Ok L' => exists l', r = Ok (HRef c) /\ cells (w_heap w') c = Some (OCtx (dset str_eq_dec d log_key (HRef l'))) /\ shows (w_heap w') (HRef l') L'
    | Err e => r = Err e /\ cells (w_heap w') c = Some (OCtx d) end.
  Proof.
    destruct w as [h0 cl rest]. cbn [w_heap w_colors w_rest]. intros [Ha _] Hc Hd (h1 & r & E1 & [K1 K2] & M).
    unfold same_log_part. unfold abind at 1, lift at 1. cbn [w_heap w_colors w_rest]. rewrite (ctx_log_run _ _ _ Hc), Hd.
    unfold abind at 1, lift at 1. cbn [w_heap w_colors w_rest]. rewrite E1. assert (Hc1 : cells h1 c = Some (OCtx d)) by (rewrite K2 by (eapply (cell_lt h0); eauto); exact Hc).
    destruct L' as [L'|e].
    - destruct M as (l' & -> & Sh). unfold lift. cbn [w_heap w_colors w_rest]. rewrite (with_value_run _ _ _ _ _ Hc1). eexists _, _. split; [reflexivity|]. cbn [w_heap]. split.
      + intros x Hx Hxc. cbn. unfold upd. destruct (Nat.eq_dec x c); [contradiction|]. auto.
      + exists l'. split; [reflexivity|]. split; [cbn; unfold upd; destruct (Nat.eq_dec c c); [reflexivity|contradiction]|]. eapply shows_ctx_poke; eauto.
    - subst r. eexists _, _. split; [reflexivity|]. cbn [w_heap]. split; [auto|]. split; [reflexivity|exact Hc1].
  Qed.
End EndToEnd.
