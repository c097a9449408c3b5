(** Proofs for C53. *)
From Verif Require Import Py PyFacts WireModel ConstModel ClientModel ClientSpec ClientProofs
  BackendModel BackendSpec BackendProofs DecodeModel ResultSpec ResultProofs EndSpec.

Lemma deliver_app cbs a b acts : deliver cbs (a ++ b) acts ->
  exists x y, acts = x ++ y /\ deliver cbs a x /\ deliver cbs b y.
Proof.
  revert acts. induction a as [|m a IH]; intros acts H; cbn [app] in H.
  - exists [], acts. split; [reflexivity|]. split; [constructor|exact H].
  - inversion H; subst;
    match goal with HD : deliver cbs (a ++ b) _ |- _ => destruct (IH _ HD) as (x & y & -> & Hx & Hy) end.
    + exists (Call p d :: x), y. split; [reflexivity|]. split; [eapply deliver_call; eauto|exact Hy].
    + exists x, y. split; [reflexivity|]. split; [apply deliver_stranger; auto|exact Hy].
    + exists (Say s :: x), y. split; [reflexivity|]. split; [constructor; auto|exact Hy].
    + exists x, y. split; [reflexivity|]. split; [constructor; auto|exact Hy].
Qed.

(** * What is asked for *)

Lemma wanted_callback p : part_ok p -> bears_callback p ->
  exists keys before, wanted p = RGet keys (part_uuid p) before /\ unknown_key keys = None.
Proof.
  destruct p as [u l|u c after|u s level inner|u c inner|inner|]; cbn [bears_callback part_ok]; intros Hok Hb; try contradiction.
  - destruct l; cbn [leaf_callback] in Hb; try discriminate Hb; cbn [wanted wanted_leaf part_uuid];
    try (eexists _, _; split; [reflexivity|]; vm_compute; reflexivity).
    + match goal with k : annotation_kind |- _ => destruct k end; eexists _, _; (split; [reflexivity|]); vm_compute; reflexivity.
    + cbn [leaf_ok] in Hok. contradiction.
  - cbn [wanted part_uuid]. eexists _, _. split; [reflexivity|]. vm_compute. reflexivity.
Qed.
Lemma wanted_default p : part_ok p -> ~ bears_callback p -> exists name config, wanted p = RDefault name config.
Proof.
  destruct p as [u l|u c after|u s level inner|u c inner|inner|]; cbn [bears_callback part_ok]; intros Hok Hb; try contradiction.
  - destruct l; cbn [leaf_callback] in Hb; try (exfalso; apply Hb; reflexivity); cbn [wanted wanted_leaf]; eexists _, _; try reflexivity.
  - cbn [wanted]. eexists _, _. reflexivity.
  - cbn [wanted]. eexists _, _. reflexivity.
Qed.
Lemma bears_dec p : {bears_callback p} + {~ bears_callback p}.
Proof.
  destruct p; cbn [bears_callback]; try (left; exact I); try (right; tauto).
  destruct (leaf_callback l); [left; reflexivity|right; discriminate].
Qed.

(** * Values *)

Definition value_of (k : pystr) (v : rvalue) : gvalue := match value_grpc k v with Some g => g | None => GUnset end.

Lemma collect_inl keys ctx values : collect keys ctx = inl values ->
  (forall k, In k keys -> In k (map fst ctx)) /\
  Forall2 (fun k kg => fst kg = k /\ exists v, dget str_eq_dec ctx k = Some v /\ snd kg = value_of k v) keys values.
Proof.
  revert values. induction keys as [|k keys IH]; intros values H; cbn [collect] in H.
  - injection H as <-. split; [intros k []|constructor].
  - destruct (dget str_eq_dec ctx k) as [v|] eqn:E; [|discriminate H].
    destruct (collect keys ctx) as [l|]; [|discriminate H]. injection H as <-.
    destruct (IH l eq_refl) as [H1 H2]. split.
    + intros q [<-|Hq]; [|auto]. apply (dget_Some_key str_eq_dec). eauto.
    + constructor; [|exact H2]. split; [reflexivity|]. exists v. split; [exact E|reflexivity].
Qed.
Lemma collect_inr keys ctx k : collect keys ctx = inr k ->
  exists had left, keys = had ++ k :: left /\ (forall h, In h had -> In h (map fst ctx)) /\ ~ In k (map fst ctx).
Proof.
  revert k. induction keys as [|q keys IH]; intros k H; cbn [collect] in H; [discriminate H|].
  destruct (dget str_eq_dec ctx q) as [v|] eqn:E.
  - destruct (collect keys ctx) as [l|k'] eqn:Ec; [discriminate H|]. injection H as <-.
    destruct (IH k' eq_refl) as (had & left & -> & Hh & Hk). exists (q :: had), left. split; [reflexivity|].
    split; [|exact Hk]. intros h [<-|Hi]; [|auto]. apply (dget_Some_key str_eq_dec). eauto.
  - injection H as <-. exists [], keys. split; [reflexivity|]. split; [intros h []|]. apply (dget_None str_eq_dec). exact E.
Qed.
Lemma gathers_sees keys ctx values d : collect keys ctx = inl values -> gathers values d -> sees keys ctx d.
Proof.
  intros H [Hn Hg]. destruct (collect_inl _ _ _ H) as [Hp HF]. split; [exact Hn|].
  intros k g. rewrite Hg. split.
  - intros (a & b & -> & Hb). destruct (Forall2_app_inv_r _ _ HF) as (ka & kb & _ & H2 & ->).
    inversion H2; subst. cbn [fst snd] in *.
    match goal with X : _ /\ _ |- _ => destruct X as [-> [v [E ->]]] end.
    split; [apply in_or_app; right; left; reflexivity|]. exists v. split; [exact E|reflexivity].
  - intros [Hk [v [E ->]]]. fold (value_of k v).
    clear H Hn Hg Hp. revert Hk. induction HF as [|q kg keys values [Hq [v' [E' Hs]]] HF IH]; intros Hk; [destruct Hk|].
    destruct (in_dec str_eq_dec k keys) as [Hi|Hi].
    + destruct (IH Hi) as (a & b & -> & Hb). exists (kg :: a), b. split; [reflexivity|exact Hb].
    + destruct Hk as [->|Hk]; [|contradiction]. exists [], values. destruct kg as [k0 g0]. cbn [fst snd] in *. subst k0 g0.
      rewrite E in E'. injection E' as <-. split; [reflexivity|].
      intros X. apply Hi. clear -HF X. induction HF as [|q kg keys values [Hq _] HF IH]; [destruct X|].
      destruct X as [X|X]; [left; congruence|right; auto].
Qed.

(** * The pipeline *)

Section Run.
  Variable run : pystr -> list (pystr * rvalue) -> userdata -> list gmessage * step.
  Variable missing : pystr -> pystr.
  Variable cbs : part -> Prop.
  Hypothesis Hrun : forall name config c, Forall ordinary (fst (run name config c)).
  Hypothesis Hone : forall p q, cbs p -> cbs q -> part_uuid p = part_uuid q -> p = q.

  (** The ending a step stands for. *)
  Definition ends_as (s : step) : ending := match s with Done c => Finished c | Failed m => Broke m | Panicked => Died end.

  Lemma run_parts_session parts : 
    (forall p, In p parts -> part_ok p) -> (forall p, In p parts -> bears_callback p -> cbs p /\ uuid_ok (part_uuid p)) ->
    forall ctx msgs s, run_parts run missing (map wanted parts) ctx = (msgs, s) ->
    Forall ordinary msgs /\ forall acts, deliver cbs msgs acts -> session run missing cbs parts ctx acts (ends_as s).
  Proof.
    induction parts as [|p parts IH]; intros Hok Hcb ctx msgs s H; cbn [map run_parts] in H.
    { injection H as <- <-. split; [constructor|]. intros acts HD. inversion HD; subst. constructor. }
    assert (Hrest : forall ctx msgs s, run_parts run missing (map wanted parts) ctx = (msgs, s) ->
      Forall ordinary msgs /\ forall acts, deliver cbs msgs acts -> session run missing cbs parts ctx acts (ends_as s)).
    { apply IH; [intros q Hq; apply Hok; right; exact Hq|intros q Hq; apply Hcb; right; exact Hq]. }
    clear IH. destruct (bears_dec p) as [Hb|Hb].
    - destruct (wanted_callback p (Hok p (or_introl eq_refl)) Hb) as (keys & before & Ew & Eu).
      destruct (Hcb p (or_introl eq_refl) Hb) as [Hp Hu].
      rewrite Ew in H. cbn [run_part] in H. rewrite Eu in H.
      assert (Hpre : exists m0 s0, match before with Some (name, config) => run name config ctx | None => ([], Done ctx) end = (m0, s0) /\
        Forall ordinary m0 /\ prelude run before ctx m0 s0).
      { destruct before as [[name config]|].
        - destruct (run name config ctx) as [m0 s0] eqn:E. exists m0, s0. split; [reflexivity|].
          split; [|constructor; exact E]. pose proof (Hrun name config ctx) as X. rewrite E in X. exact X.
        - exists [], (Done ctx). split; [reflexivity|]. split; constructor. }
      destruct Hpre as (m0 & s0 & E & Hm0 & Hpre). rewrite E in H.
      destruct s0 as [ctx'|m|].
      + destruct (collect keys ctx') as [values|k] eqn:Ec.
        * destruct (run_parts run missing (map wanted parts) ctx') as [msgs' s'] eqn:Er. injection H as <- <-.
          destruct (Hrest _ _ _ Er) as [Ho Hs]. split.
          { rewrite <- app_assoc. apply Forall_app. split; [exact Hm0|]. constructor; [|exact Ho].
            cbn [ordinary]. exists (part_uuid p). auto. }
          intros acts HD. rewrite <- app_assoc in HD. apply deliver_app in HD. destruct HD as (x & y & -> & Hx & Hy).
          cbn [app] in Hy. apply deliver_part_inv in Hy. rewrite (uuid_parse_str _ Hu) in Hy.
          destruct Hy as [(q & d & acts' & Hq & Hpu & Hg & HD & ->)|[Hn _]].
          2:{ exfalso. exact (Hn p Hp eq_refl). }
          injection Hpu as Hpu. rewrite <- (Hone p q Hp Hq Hpu).
          eapply session_call; eauto; [exact (proj1 (collect_inl _ _ _ Ec))|exact (gathers_sees _ _ _ _ Ec Hg)].
        * injection H as <- <-. split; [exact Hm0|]. intros acts HD.
          destruct (collect_inr _ _ _ Ec) as (had & left & Ek & Hh & Hk). eapply session_call_missing; eauto.
      + injection H as <- <-. split; [exact Hm0|]. intros acts HD. eapply session_call_failed; eauto.
      + injection H as <- <-. split; [exact Hm0|]. intros acts HD. eapply session_call_died; eauto.
    - destruct (wanted_default p (Hok p (or_introl eq_refl)) Hb) as (name & config & Ew).
      rewrite Ew in H. cbn [run_part] in H. pose proof (Hrun name config ctx) as Hm0.
      destruct (run name config ctx) as [m0 [ctx'|m|]] eqn:E; cbn [fst] in Hm0.
      + destruct (run_parts run missing (map wanted parts) ctx') as [msgs' s'] eqn:Er. injection H as <- <-.
        destruct (Hrest _ _ _ Er) as [Ho Hs]. split; [apply Forall_app; auto|].
        intros acts HD. apply deliver_app in HD. destruct HD as (x & y & -> & Hx & Hy). eapply session_default; eauto.
      + injection H as <- <-. split; [exact Hm0|]. intros acts HD. eapply session_default_failed; eauto.
      + injection H as <- <-. split; [exact Hm0|]. intros acts HD. eapply session_default_died; eauto.
  Qed.
End Run.

Lemma starts_proof held : NoDup (map fst held) ->
  starts_with held (if dmem str_eq_dec held (str "colors_holder") then held
                    else dset str_eq_dec held (str "colors_holder") (VOther (str "ColorsHolder"))).
Proof.
  intros Hn. destruct (dmem str_eq_dec held (str "colors_holder")) eqn:E.
  - apply (dmem_In str_eq_dec) in E. split; [exact Hn|]. split; [auto|]. split; [exact E|auto].
  - assert (Hk : ~ In (str "colors_holder") (map fst held)).
    { intros X. apply (dmem_In str_eq_dec) in X. rewrite X in E. discriminate E. }
    assert (Hd : dset str_eq_dec held (str "colors_holder") (VOther (str "ColorsHolder")) = held ++ [(str "colors_holder", VOther (str "ColorsHolder"))]).
    { apply dset_fresh. exact Hk. }
    rewrite Hd. split; [|split; [|split]].
    + rewrite map_app. apply (Permutation.Permutation_NoDup (Permutation.Permutation_cons_append _ _)). constructor; assumption.
    + intros k v X. apply in_or_app. left. exact X.
    + rewrite map_app. apply in_or_app. right. left. reflexivity.
    + intros k v X. apply in_app_or in X. destruct X as [X|[X|[]]]; [left; exact X|right]. injection X as <- _. split; [reflexivity|exact Hk].
Qed.

(** * Execution *)

Lemma map_filter_NoDup {A B} (f : A * B -> bool) l : NoDup (map fst l) -> NoDup (map fst (filter f l)).
Proof.
  induction l as [|x l IH]; intros H; [constructor|]. inversion H; subst. cbn [filter].
  destruct (f x); [|auto]. cbn [map]. constructor; [|auto]. intros X. apply H2.
  apply in_map_iff in X. destruct X as [y [E Hy]]. apply filter_In in Hy. rewrite <- E. apply in_map. apply Hy.
Qed.

Lemma execution_proof W callback print drop run missing guid parts ctx held (w : W) req :
  let server := fun (_ : pystr) rq => (fst (serve run missing guid rq), None) in
  let cbs := fun p => inside p parts /\ bears_callback p in
  let out := execute W callback print server drop parts ctx w in
  o_request out = Some req ->
  (forall name config c, Forall ordinary (fst (run name config c))) ->
  distinct_uuids parts -> (forall p, inside p parts -> bears_callback p -> uuid_ok (part_uuid p)) ->
  NoDup (map fst ctx) ->
  Forall2 (fun kv kx => fst kv = fst kx /\ carried (snd kv) = Some (snd kx)) (o_ctx out) held ->
  (forall kv, In kv (o_ctx out) ->
     In (fst kv) (map fst backend_keys) /\
     match snd kv with
     | CPipeline l => forall p, inside p l -> bears_callback p -> uuid_ok (part_uuid p)
     | _ => True
     end) ->
  exists start acts e,
    starts_with held start /\ session run missing cbs parts start acts e /\
    (forall c, snd (serve run missing guid req) = Some c <-> e = Finished c) /\
    o_world out = fst (perform callback print acts w) /\
    match snd (perform callback print acts w) with
    | Err x => o_result out = Err x /\ o_drop out = None
    | Ok _ =>
        match e with
        | Finished _ => o_drop out = Some guid /\
            o_result out = match drop guid with Ok _ => Ok (MFinal (FSuccess guid)) | Err x => Err x end
        | Broke m => o_drop out = None /\ o_result out = Ok (MFinal (FError m))
        | Died => o_drop out = None /\ forall f, o_result out <> Ok (MFinal f)
        end
    end.
Proof.
  cbv zeta. set (server := fun (_ : pystr) rq => (fst (serve run missing guid rq), @None exc)).
  set (cbs := fun p => inside p parts /\ bears_callback p).
  intros Hreq Hrun Hone Hu Hn HF Hk.
  set (out := execute W callback print server drop parts ctx w) in *.
  destruct (execute_address_proof callback print server drop parts ctx w Hn) as (Hctx & _ & _ & Hsent).
  fold out in Hctx, Hsent. destruct (Hsent req Hreq) as [Ha _].
  destruct (o_addr out) as [a|] eqn:Ea; [|congruence]. clear Ha.
  assert (Hg : exists g c, req = mkReq g c /\ pipeline_grpc parts = Ok g /\ initial_context_grpc (o_ctx out) = Ok c).
  { clear HF Hk Hctx Hsent Ea. subst out. revert Hreq. unfold execute.
    set (ctx' := if dmem str_eq_dec ctx backend_key then _ else _). clearbody ctx'.
    destruct (match dget str_eq_dec ctx backend_key with Some v => v | None => CPlain default_addr end);
      try (cbn; intros H; discriminate H).
    destruct (pipeline_grpc parts) as [g|] eqn:Eg; [|cbn; intros H; discriminate H].
    destruct (initial_context_grpc ctx') as [c|] eqn:Ec; [|cbn; intros H; discriminate H].
    destruct (server s (mkReq g c)) as [msgs0 failure0].
    destruct (receive W callback print (registry (callbacks parts)) msgs0 failure0 None w) as [w' r].
    intros Hr. exists g, c. destruct r as [[[[]| | |]|]|]; cbn in Hr |- *; injection Hr as <-; auto. }
  destruct Hg as (g & c & -> & Eg & Ec).
  pose proof (understood_proof parts g Eg Hu) as Hread.
  assert (Hheld : initial_context c [] = Ok held).
  { apply (context_kept_proof (o_ctx out)); [exact Ec| |exact HF|exact Hk].
    rewrite Hctx. apply (map_filter_NoDup _ ctx). exact Hn. }
  assert (Hnh : NoDup (map fst held)).
  { replace (map fst held) with (map fst (o_ctx out)).
    - rewrite Hctx. apply (map_filter_NoDup _ ctx). exact Hn.
    - clear -HF. induction HF as [|x y l l' [E _] HF IH]; [reflexivity|]. cbn [map]. rewrite E, IH. reflexivity. }
  set (start := if dmem str_eq_dec held (str "colors_holder") then held
                else dset str_eq_dec held (str "colors_holder") (VOther (str "ColorsHolder"))).
  destruct (run_parts run missing (map wanted parts) start) as [msgs s] eqn:Er.
  assert (Hserve : serve run missing guid (mkReq g c) =
    match s with
    | Done ctx' => (msgs ++ [MFinal (FSuccess guid)], Some ctx')
    | Failed e => (msgs ++ [MFinal (FError e)], None)
    | Panicked => (msgs, None)
    end).
  { unfold serve. cbn [rq_pipeline rq_context]. rewrite Hread, Hheld. unfold run_pipeline.
    match goal with |- context [run_parts run missing ?l ?c] => change (run_parts run missing l c) with (run_parts run missing (map wanted parts) start) end.
    rewrite Er. reflexivity. }
  destruct (run_parts_session run missing cbs Hrun) with (parts := parts) (ctx := start) (msgs := msgs) (s := s) as [Hord Hses].
  - intros p q [Hp1 Hp2] [Hq1 Hq2]. apply Hone; assumption.
  - intros p Hp. apply (proj1 (sendable_proof parts) (ex_intro _ g Eg)). apply inside_here. exact Hp.
  - intros p Hp Hb. assert (X : inside p parts) by (apply inside_here; exact Hp). split; [split; assumption|auto].
  - exact Er.
  - pose (rest := match s with Done _ => [MFinal (FSuccess guid)] | Failed e => [MFinal (FError e)] | Panicked => [] end).
    destruct (execute_results_proof callback print server drop parts ctx w a (mkReq g c) msgs rest None Ea Hreq) as (acts & HD & He & Hok).
    { unfold server. rewrite Hserve. unfold rest. destruct s; cbn [fst]; rewrite ?app_nil_r; reflexivity. }
    { exact Hord. }
    fold out in He, Hok. exists start, acts, (ends_as s).
    split; [apply starts_proof; exact Hnh|]. split; [apply Hses; exact HD|].
    split.
    { intros c0. rewrite Hserve. destruct s; cbn [snd ends_as]; split; intros X; congruence. }
    destruct (perform callback print acts w) as [w' [[]|x]]; cbn [fst snd] in He, Hok |- *.
    2:{ destruct (He x eq_refl) as (H1 & H2 & H3). auto. }
    destruct (Hok eq_refl) as (H1 & H2 & _). unfold rest in H1, H2. destruct s as [c0|m|]; cbn [ends_as].
    + destruct (H1 _ _ eq_refl) as (Hw & Hd & Hr & _). split; [exact Hw|]. split; [apply Hd; reflexivity|apply Hr; reflexivity].
    + destruct (H1 _ _ eq_refl) as (Hw & Hd & _ & Hr). split; [exact Hw|]. split; [|apply Hr; discriminate].
      destruct (o_drop out) as [gu|]; [|reflexivity]. discriminate (proj1 (Hd gu) eq_refl).
    + destruct (H2 eq_refl) as (Hw & Hd & _ & Hr & Hr'). split; [exact Hw|]. split; [exact Hd|]. intros f.
      destruct msgs as [|m0 msgs0 _] using rev_ind.
      * rewrite (Hr eq_refl eq_refl). discriminate.
      * rewrite (Hr' _ _ eq_refl eq_refl). intros X. injection X as ->. apply Forall_app in Hord. destruct Hord as [_ Hl].
        inversion Hl; subst. assumption.
Qed.

(** * One outcome *)

Lemma session_determined_proof run missing parts0 parts ctx acts e acts' e' :
  let cbs := fun p => inside p parts0 /\ bears_callback p in
  distinct_uuids parts0 ->
  session run missing cbs parts ctx acts e -> session run missing cbs parts ctx acts' e' ->
  e = e' /\ Forall2 same_action acts acts'.
Proof.
  cbv zeta. intros HU H. revert acts' e'.
  assert (HD : forall msgs x y, deliver (fun p => inside p parts0 /\ bears_callback p) msgs x ->
     deliver (fun p => inside p parts0 /\ bears_callback p) msgs y -> Forall2 same_action x y).
  { intros. eapply deliver_determined_proof; eauto. }
  assert (HP : forall before c m s m' s', prelude run before c m s -> prelude run before c m' s' -> m = m' /\ s = s').
  { intros before c m s m' s' H1 H2. inversion H1; subst; inversion H2; subst; split; congruence. }
  assert (HS : forall p keys c d d', sees keys c d -> sees keys c d' -> same_action (Call p d) (Call p d')).
  { intros p keys c d d' [_ H1] [_ H2]. split; [reflexivity|]. intros k v. rewrite H1, H2. reflexivity. }
  assert (HM : forall (had : list pystr) k left had' k' left' (c : userdata), had ++ k :: left = had' ++ k' :: left' ->
     (forall h, In h had -> In h (map fst c)) -> ~ In k (map fst c) ->
     (forall h, In h had' -> In h (map fst c)) -> ~ In k' (map fst c) -> k = k').
  { induction had as [|x had IHh]; intros k left had' k' left' c E H1 H2 H3 H4; destruct had' as [|x' had']; cbn [app] in E; injection E as E1 E2.
    - exact E1.
    - subst x'. exfalso. apply H2. apply H3. left. reflexivity.
    - subst x. exfalso. apply H4. apply H1. left. reflexivity.
    - eapply (IHh _ _ had' _ _ c E2); auto. intros h Hh. apply H1. right. exact Hh. intros h Hh. apply H3. right. exact Hh. }
  induction H as [ctx|p rest ctx name config msgs ctx' acts acts1 e Hb Hw Hr Hd Hs IH
    |p rest ctx name config msgs m acts Hb Hw Hr Hd|p rest ctx name config msgs acts Hb Hw Hr Hd
    |p rest ctx keys before msgs ctx' acts d acts1 e Hb Hw Hr Hd Hk Hsee Hs IH
    |p rest ctx keys before msgs ctx' acts had k left Hb Hw Hr Hd Hk Hh Hkm
    |p rest ctx keys before msgs m acts Hb Hw Hr Hd|p rest ctx keys before msgs acts Hb Hw Hr Hd]; intros acts' e' H'; inversion H'; subst;
  try contradiction; try (split; [reflexivity|constructor]; fail);
  repeat match goal with
  | X : wanted ?p = _, Y : wanted ?p = _ |- _ => rewrite X in Y; injection Y; clear Y; intros; subst
  end;
  repeat match goal with
  | X : run ?a ?b ?c = _, Y : run ?a ?b ?c = _ |- _ => rewrite X in Y; first [discriminate Y | injection Y; clear Y; intros; subst]
  | X : prelude run ?b ?c _ _, Y : prelude run ?b ?c _ _ |- _ =>
      let E1 := fresh in let E2 := fresh in destruct (HP _ _ _ _ _ _ X Y) as [E1 E2]; clear Y; first [discriminate E2 | injection E2; clear E2; intros; subst | subst; clear E2]
  end.
  all: try (split; [reflexivity|eauto]; fail).
  all: try (match goal with X : forall q, In q (_ ++ ?x :: _) -> _, Y : ~ In ?x _ |- _ =>
     exfalso; apply Y; apply X; apply in_or_app; right; left; reflexivity end).
  - match goal with X : session run missing _ rest _ _ e' |- _ => destruct (IH _ _ X) as [-> HF] end.
    split; [reflexivity|]. apply Forall2_app; eauto.
  - match goal with X : session run missing _ rest _ _ e' |- _ => destruct (IH _ _ X) as [-> HF] end.
    split; [reflexivity|]. apply Forall2_app; [eauto|]. constructor; eauto.
  - split; [f_equal; f_equal; eauto|eauto].
Qed.

(** * Callbacks of the pipeline *)

Lemma logs_no_call cbs msgs acts : Forall (fun m => exists s, m = MLog s) msgs -> deliver cbs msgs acts -> called acts = [].
Proof.
  intros HF HD. induction HD as [|u values p d msgs acts _ _ _ _ _ IH|u values msgs acts _ _ _ IH|s msgs acts _ IH|msgs acts _ IH];
  inversion HF as [|m l [s' E] HF']; subst; try discriminate E; [reflexivity|]. exact (IH HF').
Qed.
Lemma called_app a b : called (a ++ b) = called a ++ called b.
Proof. apply flat_map_app. Qed.
Lemma has_callback_spec p : has_callback p = true <-> bears_callback p.
Proof. destruct p; cbn [has_callback bears_callback]; split; intros H; try reflexivity; try discriminate H; try contradiction; try exact I; exact H. Qed.

Lemma called_in_order_proof run missing cbs parts ctx acts e :
  (forall name config c, Forall (fun m => exists s, m = MLog s) (fst (run name config c))) ->
  session run missing cbs parts ctx acts e ->
  exists ran rest, parts = ran ++ rest /\ called acts = filter has_callback ran /\ ((exists c, e = Finished c) <-> rest = []).
Proof.
  intros Hrun H.
  assert (Hm : forall name config c m s, run name config c = (m, s) -> Forall (fun m => exists s, m = MLog s) m).
  { intros name config c m s E. pose proof (Hrun name config c) as X. rewrite E in X. exact X. }
  assert (Hp : forall before c m s, prelude run before c m s -> Forall (fun m => exists s, m = MLog s) m).
  { intros before c m s X. destruct X; [constructor|eauto]. }
  assert (Hno : forall p, ~ bears_callback p -> has_callback p = false).
  { intros p Hb. destruct (has_callback p) eqn:E; [|reflexivity]. exfalso. apply Hb. apply has_callback_spec. exact E. }
  induction H as [ctx|p rest ctx name config msgs ctx' acts acts1 e Hb Hw Hr Hd Hs IH
    |p rest ctx name config msgs m acts Hb Hw Hr Hd|p rest ctx name config msgs acts Hb Hw Hr Hd
    |p rest ctx keys before msgs ctx' acts d acts1 e Hb Hw Hr Hd Hk Hsee Hs IH
    |p rest ctx keys before msgs ctx' acts had k left Hb Hw Hr Hd Hk Hh Hkm
    |p rest ctx keys before msgs m acts Hb Hw Hr Hd|p rest ctx keys before msgs acts Hb Hw Hr Hd].
  - exists [], []. split; [reflexivity|]. split; [reflexivity|]. split; [reflexivity|eauto].
  - destruct IH as (ran & left & -> & E & He). exists (p :: ran), left. split; [reflexivity|].
    split; [|exact He]. rewrite called_app, (logs_no_call _ _ _ (Hm _ _ _ _ _ Hr) Hd), E. cbn [filter app]. rewrite (Hno p Hb). reflexivity.
  - exists [], (p :: rest). split; [reflexivity|]. split; [exact (logs_no_call _ _ _ (Hm _ _ _ _ _ Hr) Hd)|].
    split; [intros [c X]; discriminate X|discriminate].
  - exists [], (p :: rest). split; [reflexivity|]. split; [exact (logs_no_call _ _ _ (Hm _ _ _ _ _ Hr) Hd)|].
    split; [intros [c X]; discriminate X|discriminate].
  - destruct IH as (ran & left & -> & E & He). exists (p :: ran), left. split; [reflexivity|].
    split; [|exact He]. rewrite called_app, (logs_no_call _ _ _ (Hp _ _ _ _ Hr) Hd). cbn [filter app].
    rewrite (proj2 (has_callback_spec p) Hb). cbn [called flat_map app]. f_equal. exact E.
  - exists [], (p :: rest). split; [reflexivity|]. split; [exact (logs_no_call _ _ _ (Hp _ _ _ _ Hr) Hd)|].
    split; [intros [c X]; discriminate X|discriminate].
  - exists [], (p :: rest). split; [reflexivity|]. split; [exact (logs_no_call _ _ _ (Hp _ _ _ _ Hr) Hd)|].
    split; [intros [c X]; discriminate X|discriminate].
  - exists [], (p :: rest). split; [reflexivity|]. split; [exact (logs_no_call _ _ _ (Hp _ _ _ _ Hr) Hd)|].
    split; [intros [c X]; discriminate X|discriminate].
Qed.

(** * The values of a callback *)

Lemma pick_present (d : dict pystr gvalue) k : In k (map fst d) -> exists g, pick d k = Ok g.
Proof.
  intros H. apply (dget_Some_key str_eq_dec) in H. destruct H as [g E]. exists g. unfold pick, dgetitem. rewrite E. reflexivity.
Qed.
Lemma dataset_no_key d : from_grpc_ficus_dataset d <> Err KeyError.
Proof. unfold from_grpc_ficus_dataset, data_frame. destruct (_ && _); discriminate. Qed.
Lemma labeled_no_key d : from_grpc_labeled_dataset d <> Err KeyError.
Proof.
  unfold from_grpc_labeled_dataset. pose proof (dataset_no_key (gl_dataset d)).
  destruct (from_grpc_ficus_dataset (gl_dataset d)) as [df|x]; cbn [bind]; [|exact H].
  unfold set_column. destruct (negb _); [discriminate|]. destruct (existsb _ _); discriminate.
Qed.
Lemma show_labeled_no_key o k d : In k (map fst d) -> show_labeled o k d <> Err KeyError.
Proof.
  intros H. unfold show_labeled. destruct (negb (vo_show o)); [discriminate|].
  destruct (pick_present d k H) as [g ->]. cbn [bind]. pose proof (labeled_no_key (as_labeled g)).
  destruct (from_grpc_labeled_dataset (as_labeled g)); cbn [bind]; [discriminate|congruence].
Qed.

Lemma values_present_proof float_repr o p keys before ctx vals :
  wanted p = RGet keys (part_uuid p) before -> (forall k, In k keys -> In k (map fst ctx)) -> sees keys ctx vals ->
  part_show float_repr o p vals <> Err KeyError.
Proof.
  intros Hw Hk [_ Hs].
  assert (Hd : forall k, In k keys -> In k (map fst vals)).
  { intros k Hi. specialize (Hk k Hi). apply (dget_Some_key str_eq_dec) in Hk. destruct Hk as [v E].
    apply (in_map fst _ (k, match value_grpc k v with Some g => g | None => GUnset end)). apply Hs. eauto. }
  clear Hk Hs. destruct p as [u l|u c after|u s level inner|u c inner|inner|]; try discriminate Hw.
  - destruct l; cbn [wanted wanted_leaf] in Hw; try discriminate Hw;
    try (unfold r_tandem, r_repeats in Hw; discriminate Hw);
    injection Hw as <- _; cbn [part_show leaf_show].
    all: try (apply show_labeled_no_key; apply Hd; left; reflexivity).
    all: try (match goal with |- bind (pick ?vals ?k) _ <> _ => destruct (pick_present vals k) as [g ->]; [apply Hd; left; reflexivity|] end; cbn [bind]).
    all: try discriminate.
    + pose proof (dataset_no_key (as_dataset g)). destruct (from_grpc_ficus_dataset (as_dataset g)); cbn [bind]; [discriminate|congruence].
    + match goal with |- bind (pick ?vals ?k) _ <> _ => destruct (pick_present vals k) as [g' ->]; [apply Hd; right; left; match goal with x : annotation_kind |- _ => destruct x end; reflexivity|] end.
      cbn [bind]. discriminate.
  - cbn [wanted] in Hw. injection Hw as <- _. cbn [part_show]. apply show_labeled_no_key. apply Hd. left. reflexivity.
Qed.

Lemma underlying_zero_proof float_repr o u n ctx d :
  dget str_eq_dec ctx (str "underlying_events_count") = Some (VUsize n) -> sees [str "underlying_events_count"] ctx d ->
  part_show float_repr o (PLeaf u LPrintUnderlyingCount) d = Ok (ShPrint (str "Underlying events count: 0")).
Proof.
  intros E [Hn Hs]. cbn [part_show leaf_show].
  assert (H : In (str "underlying_events_count", GUnset) d).
  { apply Hs. split; [left; reflexivity|]. exists (VUsize n). split; [exact E|]. vm_compute. reflexivity. }
  unfold pick, dgetitem. change const_underlying_events_count with (str "underlying_events_count").
  rewrite (In_dget str_eq_dec d _ _ Hn H). cbn [bind]. vm_compute. reflexivity.
Qed.
