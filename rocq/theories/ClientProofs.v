(** Proofs for C42 and C43. *)
From Verif Require Import Py PyFacts WireModel ConstModel ClientModel ClientSpec.

(** * Induction over parts and messages with nested lists *)

Section PartInd.
  Variable P : part -> Prop.
  Hypothesis Hleaf : forall u l, P (PLeaf u l).
  Hypothesis Huntil : forall u c l, Forall P l -> P (PUntil u c (Some l)).
  Hypothesis Huntil0 : forall u c, P (PUntil u c None).
  Hypothesis Heach : forall u s n l, Forall P l -> P (PEachLog u s n l).
  Hypothesis Hdb : forall u c l, Forall P l -> P (PLogDbscan u c l).
  Hypothesis Hba : forall u l, Forall P l -> P (PBeforeAfter u l).
  Hypothesis Hnot : P PNotAPart.
  Fixpoint part_ind2 (p : part) : P p :=
    let lst := fix lst (l : list part) : Forall P l :=
      match l with [] => Forall_nil _ | x :: xs => Forall_cons x (part_ind2 x) (lst xs) end in
    match p with
    | PLeaf u l => Hleaf u l
    | PUntil u c (Some l) => Huntil u c l (lst l)
    | PUntil u c None => Huntil0 u c
    | PEachLog u s n l => Heach u s n l (lst l)
    | PLogDbscan u c l => Hdb u c l (lst l)
    | PBeforeAfter u l => Hba u l (lst l)
    | PNotAPart => Hnot
    end.
End PartInd.

(** * uuid round trip *)

Lemma hexl_unhex d : (d < 16)%N -> unhex (hexl d) = Some d.
Proof.
  intros H. unfold hexl, unhex.
  destruct (d <? 10)%N eqn:E.
  - apply N.ltb_lt in E.
    replace ((48 <=? 48 + d) && (48 + d <=? 57))%N with true.
    2:{ symmetry. apply andb_true_iff. split; apply N.leb_le; lia. }
    f_equal. lia.
  - apply N.ltb_ge in E.
    replace ((48 <=? 87 + d) && (87 + d <=? 57))%N with false.
    2:{ symmetry. apply andb_false_iff. right. apply N.leb_gt. lia. }
    replace ((97 <=? 87 + d) && (87 + d <=? 102))%N with true.
    2:{ symmetry. apply andb_true_iff. split; apply N.leb_le; lia. }
    f_equal. lia.
Qed.

Lemma hexl_not_hyphen d : (d < 16)%N -> hexl d <> 45%N.
Proof. intros H. unfold hexl. destruct (d <? 10)%N eqn:E; [apply N.ltb_lt in E|apply N.ltb_ge in E]; lia. Qed.

Lemma hex_digits_length k n : length (hex_digits k n) = k.
Proof.
  revert n. induction k as [|k IH]; intros n; [reflexivity|].
  cbn [hex_digits]. rewrite app_length, IH. cbn. lia.
Qed.

Lemma hex_digits_In k n c : In c (hex_digits k n) -> exists d, (d < 16)%N /\ c = hexl d.
Proof.
  revert n. induction k as [|k IH]; intros n; [intros []|].
  cbn [hex_digits]. rewrite in_app_iff. intros [H|[H|[]]]; [exact (IH _ H)|].
  exists (n mod 16)%N. split; [apply N.mod_lt; lia|auto].
Qed.

Lemma read_hex_app a b acc :
  read_hex acc (a ++ b) = match read_hex acc a with Some x => read_hex x b | None => None end.
Proof.
  revert acc. induction a as [|c a IH]; intros acc; [reflexivity|].
  cbn. destruct (unhex c); auto.
Qed.

Lemma read_hex_digits k n acc :
  (n < 16 ^ N.of_nat k)%N -> read_hex acc (hex_digits k n) = Some (acc * 16 ^ N.of_nat k + n)%N.
Proof.
  revert n acc. induction k as [|k IH]; intros n acc H.
  - cbn in *. f_equal. lia.
  - rewrite Nat2N.inj_succ, N.pow_succ_r' in *.
    cbn [hex_digits]. rewrite read_hex_app, IH.
    2:{ apply N.div_lt_upper_bound; lia. }
    cbn [read_hex]. rewrite hexl_unhex by (apply N.mod_lt; lia).
    f_equal. pose proof (N.div_mod n 16 ltac:(lia)). nia.
Qed.

Lemma filter_hyphen l : (forall c, In c l -> c <> 45%N) -> filter (fun c => negb (c =? 45)%N) l = l.
Proof.
  induction l as [|c l IH]; intros H; [reflexivity|]. cbn.
  destruct (c =? 45)%N eqn:E.
  - apply N.eqb_eq in E. exfalso. apply (H c); [left|]; auto.
  - cbn. f_equal. apply IH. intros x Hx. apply H. right; exact Hx.
Qed.

Lemma firstn_In {A} n (l : list A) x : In x (firstn n l) -> In x l.
Proof. intros H. rewrite <- (firstn_skipn n l). apply in_or_app. auto. Qed.
Lemma skipn_In {A} n (l : list A) x : In x (skipn n l) -> In x l.
Proof. intros H. rewrite <- (firstn_skipn n l). apply in_or_app. auto. Qed.

Lemma skipn_add {A} n m (h : list A) : skipn n (skipn m h) = skipn (n + m) h.
Proof.
  revert h. induction m as [|m IH]; intros h.
  - rewrite Nat.add_0_r. reflexivity.
  - rewrite Nat.add_succ_r. destruct h as [|x h]; [rewrite !skipn_nil; reflexivity|]. cbn [skipn]. apply IH.
Qed.

Lemma cut5 {A} (h : list A) :
  firstn 8 h ++ firstn 4 (skipn 8 h) ++ firstn 4 (skipn 12 h) ++ firstn 4 (skipn 16 h) ++ skipn 20 h = h.
Proof.
  assert (E : forall n m, m = 4 + n -> firstn 4 (skipn n h) ++ skipn m h = skipn n h).
  { intros n m ->. rewrite <- skipn_add. apply firstn_skipn. }
  rewrite (E 16 20 eq_refl), (E 12 16 eq_refl), (E 8 12 eq_refl). apply firstn_skipn.
Qed.

Lemma uuid_dehyphen u :
  filter (fun c => negb (c =? 45)%N) (uuid_str u) = hex_digits 32 u.
Proof.
  unfold uuid_str. set (h := hex_digits 32 u).
  assert (Hh : forall c, In c h -> c <> 45%N).
  { intros c Hc. destruct (hex_digits_In _ _ _ Hc) as [d [Hd ->]]. apply hexl_not_hyphen, Hd. }
  cbv zeta. rewrite !filter_app. cbn [filter N.eqb Pos.eqb negb app].
  repeat rewrite filter_hyphen;
    try (intros c Hc; apply Hh; repeat (apply firstn_In in Hc || apply skipn_In in Hc); exact Hc).
  apply cut5.
Qed.

Lemma uuid_parse_str u : uuid_ok u -> uuid_parse (uuid_str u) = Ok u.
Proof.
  intros H. unfold uuid_parse. rewrite uuid_dehyphen, hex_digits_length.
  cbn [Nat.eqb]. rewrite read_hex_digits.
  - rewrite N.mul_0_l, N.add_0_l. reflexivity.
  - unfold uuid_ok in H. replace (16 ^ N.of_nat 32)%N with (2 ^ 128)%N by reflexivity. exact H.
Qed.

Lemma uuid_str_inj u v : uuid_ok u -> uuid_ok v -> uuid_str u = uuid_str v -> u = v.
Proof.
  intros Hu Hv E. apply (f_equal uuid_parse) in E.
  rewrite !uuid_parse_str in E by assumption. congruence.
Qed.

(** * C43 *)

Lemma inside_single p q :
  inside p [q] <-> p = q \/ exists inner, holds q inner /\ inside p inner.
Proof.
  split.
  - intros H. remember [q] as l eqn:E. destruct H as [l Hin|q0 l inner Hin Hh Hi']; subst.
    + destruct Hin as [->|[]]. left; reflexivity.
    + destruct Hin as [->|[]]. right; eauto.
  - intros [->|[inner [Hh Hi]]].
    + apply inside_here. left; reflexivity.
    + eapply inside_deep; [left; reflexivity|exact Hh|exact Hi].
Qed.

Lemma inside_up p q l : In q l -> inside p [q] -> inside p l.
Proof.
  rewrite inside_single. intros Hq [->|[inner [Hh Hi]]].
  - apply inside_here. exact Hq.
  - eapply inside_deep; eauto.
Qed.

Lemma inside_down p l : inside p l -> exists q, In q l /\ inside p [q].
Proof.
  intros H. destruct H as [l Hin|q0 l inner Hin Hh Hi'].
  - exists p. split; [exact Hin|]. apply inside_here. left; reflexivity.
  - exists q0. split; [exact Hin|]. apply inside_single. right; eauto.
Qed.

Lemma inside_deep_callbacks (l : list part) p :
  Forall (fun q => (forall u i, ~ inside (PBeforeAfter u i) [q]) ->
                   (In p (part_callbacks q) <-> inside p [q] /\ bears_callback p)) l ->
  (forall u i, ~ inside (PBeforeAfter u i) l) ->
  (In p (callbacks l) <-> inside p l /\ bears_callback p).
Proof.
  intros HF HN. rewrite Forall_forall in HF. unfold callbacks. rewrite in_flat_map.
  assert (HN' : forall q, In q l -> forall u i, ~ inside (PBeforeAfter u i) [q]).
  { intros q Hq u i Hi. apply (HN u i). apply (inside_up _ _ _ Hq Hi). }
  split.
  - intros [q [Hq Hp]]. apply (HF q Hq (HN' q Hq)) in Hp. destruct Hp as [Hi Hb].
    split; [apply (inside_up _ _ _ Hq Hi)|exact Hb].
  - intros [Hi Hb]. apply inside_down in Hi. destruct Hi as [q [Hq Hi]].
    exists q. split; [exact Hq|]. apply (HF q Hq (HN' q Hq)). auto.
Qed.

Lemma part_callbacks_exact q p :
  (forall u i, ~ inside (PBeforeAfter u i) [q]) ->
  (In p (part_callbacks q) <-> inside p [q] /\ bears_callback p).
Proof.
  revert p. induction q as [u l|u c l IH|u c|u s n l IH|u c l IH|u l IH|] using part_ind2; intros p HN.
  - cbn [part_callbacks]. rewrite inside_single. split.
    + destruct (leaf_callback l) eqn:E; [|intros []]. intros [<-|[]].
      split; [left; reflexivity|exact E].
    + intros [[->|[inner [Hh _]]] Hb]; [|inversion Hh]. cbn in Hb. rewrite Hb. left; reflexivity.
  - cbn [part_callbacks]. fold (callbacks l). rewrite inside_single.
    rewrite inside_deep_callbacks.
    + split.
      * intros [Hi Hb]. split; [right; exists l; split; [constructor|exact Hi]|exact Hb].
      * intros [[->|[inner [Hh Hi]]] Hb]; [destruct Hb|]. inversion Hh; subst. auto.
    + eapply Forall_impl; [|exact IH]. intros q Hq. exact (Hq p).
    + intros u0 i Hi. apply (HN u0 i). apply inside_single. right. exists l. split; [constructor|exact Hi].
  - cbn [part_callbacks]. rewrite inside_single. split; [intros []|].
    intros [[->|[inner [Hh _]]] Hb]; [destruct Hb|inversion Hh].
  - cbn [part_callbacks]. fold (callbacks l). rewrite inside_single.
    rewrite inside_deep_callbacks.
    + split.
      * intros [Hi Hb]. split; [right; exists l; split; [constructor|exact Hi]|exact Hb].
      * intros [[->|[inner [Hh Hi]]] Hb]; [destruct Hb|]. inversion Hh; subst. auto.
    + eapply Forall_impl; [|exact IH]. intros q Hq. exact (Hq p).
    + intros u0 i Hi. apply (HN u0 i). apply inside_single. right. exists l. split; [constructor|exact Hi].
  - cbn [part_callbacks]. fold (callbacks l). rewrite inside_single. cbn [In].
    rewrite inside_deep_callbacks.
    + split.
      * intros [<-|[Hi Hb]].
        -- split; [left; reflexivity|exact I].
        -- split; [right; exists l; split; [constructor|exact Hi]|exact Hb].
      * intros [[->|[inner [Hh Hi]]] Hb]; [left; reflexivity|]. inversion Hh; subst. right; auto.
    + eapply Forall_impl; [|exact IH]. intros q Hq. exact (Hq p).
    + intros u0 i Hi. apply (HN u0 i). apply inside_single. right. exists l. split; [constructor|exact Hi].
  - exfalso. apply (HN u l). apply inside_here. left; reflexivity.
  - cbn [part_callbacks]. rewrite inside_single. split; [intros []|].
    intros [[->|[inner [Hh _]]] Hb]; [destruct Hb|inversion Hh].
Qed.

Lemma callbacks_exact l p :
  (forall u i, ~ inside (PBeforeAfter u i) l) ->
  (In p (callbacks l) <-> inside p l /\ bears_callback p).
Proof.
  intros HN. apply inside_deep_callbacks; [|exact HN].
  apply Forall_forall. intros q _ Hq. apply part_callbacks_exact, Hq.
Qed.

(** A configuration that was built, entry by entry. *)
Lemma build_config_Forall2 l c :
  build_config l = Ok c -> Forall2 (fun a kv => fst a = fst kv /\ snd a = Ok (snd kv)) l c.
Proof.
  unfold build_config. revert c. induction l as [|[k r] l IH]; intros c H.
  - cbn in H. injection H as <-. constructor.
  - cbn in H. destruct r as [v|]; [|discriminate]. cbn in H.
    destruct (mapM _ l) as [c'|] eqn:E; [|discriminate]. cbn in H. injection H as <-.
    constructor; [split; reflexivity|]. apply IH. reflexivity.
Qed.

Lemma build_config_app a b c :
  build_config (a ++ b) = Ok c -> exists ca cb, build_config a = Ok ca /\ build_config b = Ok cb /\ c = ca ++ cb.
Proof.
  unfold build_config. revert c. induction a as [|x a IH]; intros c H.
  - exists [], c. auto.
  - cbn [app mapM] in H. destruct (bind (snd x) _) as [v|] eqn:Ex; [|discriminate].
    cbn [bind] in H. destruct (mapM _ (a ++ b)) as [cc|] eqn:E; [|discriminate].
    cbn [bind] in H. injection H as <-.
    destruct (IH cc eq_refl) as [ca [cb [Ha [Hb ->]]]].
    exists (v :: ca), cb. cbn [mapM]. rewrite Ex. cbn [bind]. rewrite Ha. cbn [bind]. auto.
Qed.

(** Appends that are not pipelines carry no frontend uuid. *)
Definition plain_append (a : append) : Prop := forall v, snd a = Ok v -> value_frontends v = [].

Lemma plain_config l c : Forall plain_append l -> build_config l = Ok c ->
  flat_map (fun kv => value_frontends (snd kv)) c = [].
Proof.
  intros HF H. apply build_config_Forall2 in H.
  induction H as [|[k r] [k' v] l c [Hk Hr] _ IH]; [reflexivity|].
  inversion HF as [|? ? Ha HF']; subst. cbn. cbn in Hr. rewrite (Ha v Hr). apply IH, HF'.
Qed.

Lemma plain_eq l c : build_config l = Ok c -> Forall plain_append l ->
  flat_map (fun kv => value_frontends (snd kv)) c = [].
Proof. intros H HF. exact (plain_config l c HF H). Qed.

Lemma plain_string k s : plain_append (append_string k s).
Proof. intros v H. cbn in H. unfold string_value in H. destruct (pb_string s); [|discriminate]. injection H as <-. reflexivity. Qed.
Lemma plain_float k s : plain_append (append_float k s).
Proof. intros v H. cbn in H. injection H as <-. reflexivity. Qed.
Lemma plain_bool k s : plain_append (append_bool k s).
Proof. intros v H. cbn in H. injection H as <-. reflexivity. Qed.
Lemma plain_uint32 k s : plain_append (append_uint32 k s).
Proof. intros v H. cbn in H. unfold uint32_value in H. destruct (pb_uint32 s); [|discriminate]. injection H as <-. reflexivity. Qed.
Lemma plain_strings k s : plain_append (append_strings k s).
Proof. intros v H. cbn in H. unfold strings_value in H. destruct (mapM _ s); [|discriminate]. injection H as <-. reflexivity. Qed.
Lemma plain_enum k t s : plain_append (append_enum k t s).
Proof.
  intros v H. cbn in H. unfold enum_value in H. destruct (pb_string t); [|discriminate].
  cbn [bind] in H. destruct (pb_string s); [|discriminate]. injection H as <-. reflexivity.
Qed.
Lemma plain_opt_string k o : Forall plain_append (append_opt_string k o).
Proof. destruct o; repeat constructor. apply plain_string. Qed.

Create HintDb plain.
#[local] Hint Resolve plain_string plain_float plain_bool plain_uint32 plain_strings plain_enum plain_opt_string : plain.

Ltac solve_plain :=
  unfold append_strategy, append_kind, append_adjusting, append_narrow, append_undef, append_filter, append_source;
  repeat first [ apply Forall_app; split | apply Forall_cons | apply Forall_nil ]; auto with plain.

Lemma default_plain name l g :
  Forall plain_append l -> default_part name l = Ok g -> part_frontends g = [].
Proof.
  intros HF H. unfold default_part in H. destruct (build_config l) as [c|] eqn:E; [|discriminate].
  injection H as <-. cbn. eapply plain_config; eassumption.
Qed.
Lemma complex_plain u keys name l g :
  Forall plain_append l -> complex_part u keys name l = Ok g -> part_frontends g = [uuid_str u].
Proof.
  intros HF H. unfold complex_part in H. destruct (build_config l) as [c|] eqn:E; [|discriminate].
  injection H as <-. cbn. f_equal. eapply plain_config; eassumption.
Qed.

Lemma tandem_plain m n c g : tandem_grpc m n c = Ok g -> part_frontends g = [].
Proof. intros H. eapply default_plain; [|exact H]. solve_plain. Qed.
Lemma repeats_plain m n c g : repeats_grpc m n c = Ok g -> part_frontends g = [].
Proof. intros H. eapply default_plain; [|exact H]. solve_plain. Qed.
Lemma discover_plain n g : discover_activities_grpc n = Ok g -> part_frontends g = [].
Proof. intros H. eapply default_plain; [|exact H]. solve_plain. Qed.
Lemma patterns_plain k s n g : patterns_part_grpc k s n = Ok g -> part_frontends g = [].
Proof. destruct k; cbn; (apply tandem_plain || apply repeats_plain). Qed.

Lemma leaf_frontends u l g : leaf_grpc u l = Ok g ->
  part_frontends g = if leaf_callback l then [uuid_str u] else [].
Proof.
  destruct l; cbn [leaf_grpc leaf_callback]; intros H;
  try (eapply default_plain; [|exact H]; solve_plain; fail);
  try (eapply complex_plain; [|exact H]; unfold common_appends; solve_plain; fail);
  try (injection H as <-; reflexivity);
  try discriminate H.
  - unfold default_part in H. destruct (build_config _) as [c|] eqn:E; [|discriminate].
    injection H as <-. apply build_config_Forall2 in E.
    inversion E as [|a [k v] l1 c1 [Hk Hv] HF]; subst. inversion HF; subst. cbn.
    cbn in Hv. destruct (patterns_part_grpc kind s max_length) as [p|] eqn:Ep; [|discriminate].
    cbn [bind] in Hv. destruct (discover_activities_grpc level) as [d|] eqn:Ed; [|discriminate].
    cbn [bind] in Hv. injection Hv as <-. cbn.
    rewrite (patterns_plain _ _ _ _ Ep), (discover_plain _ _ Ed). reflexivity.
Qed.

Lemma convert_parts_mapM f l : convert_parts f l = mapM f l.
Proof.
  induction l as [|x l IH]; [reflexivity|]. cbn. destruct (f x); [|reflexivity]. cbn. rewrite IH. reflexivity.
Qed.

(** Nested pipelines. *)
Definition cb_frontends (l : list part) : list pystr := map (fun p => uuid_str (part_uuid p)) (callbacks l).

Lemma mapM_frontends l g :
  Forall (fun p => forall g, to_grpc p = Ok g -> part_frontends g = map (fun p => uuid_str (part_uuid p)) (part_callbacks p)) l ->
  convert_parts to_grpc l = Ok g -> flat_map part_frontends g = cb_frontends l.
Proof.
  intros HF H. rewrite convert_parts_mapM in H. apply mapM_ok_inv in H. unfold cb_frontends, callbacks.
  revert HF. induction H as [|p x l g Hp _ IH]; intros HF; [reflexivity|].
  inversion HF as [|? ? H1 H2]; subst. cbn. rewrite map_app, (H1 _ Hp), IH by assumption. reflexivity.
Qed.

Lemma pipeline_append_frontends k r c :
  build_config [append_pipeline k r] = Ok c ->
  exists g, r = Ok g /\ flat_map (fun kv => value_frontends (snd kv)) c = flat_map part_frontends g.
Proof.
  intros H. unfold build_config, append_pipeline in H. cbn in H. destruct r as [g|]; [|discriminate].
  cbn in H. injection H as <-. exists g. cbn. rewrite app_nil_r. auto.
Qed.

Lemma to_grpc_frontends p : forall g, to_grpc p = Ok g ->
  part_frontends g = map (fun p => uuid_str (part_uuid p)) (part_callbacks p).
Proof.
  induction p as [u l|u c l IH|u c|u s n l IH|u c l IH|u l IH|] using part_ind2; intros g H.
  - cbn [to_grpc] in H. rewrite (leaf_frontends _ _ _ H). cbn [part_callbacks].
    destruct (leaf_callback l); reflexivity.
  - cbn [to_grpc fst] in H. unfold default_part in H.
    destruct (build_config _) as [cfg|] eqn:E; [|discriminate]. injection H as <-.
    unfold until_appends in E. rewrite app_assoc in E.
    apply build_config_app in E. destruct E as [ca [cb [Ea [Eb ->]]]].
    apply pipeline_append_frontends in Eb. destruct Eb as [gi [Hg Hf]].
    pose proof (plain_eq _ _ Ea) as Pa. cbn [part_frontends]. rewrite flat_map_app, Hf, Pa by solve_plain.
    cbn. apply mapM_frontends; assumption.
  - cbn [to_grpc fst] in H. eapply default_plain; [|exact H]. unfold until_appends. solve_plain.
  - cbn [to_grpc] in H. unfold default_part in H.
    destruct (build_config _) as [cfg|] eqn:E; [|discriminate]. injection H as <-.
    match type of E with build_config (?a :: ?r) = _ => change (a :: r) with ([a] ++ r) in E end.
    apply build_config_app in E. destruct E as [ca [cb [Ea [Eb ->]]]].
    apply pipeline_append_frontends in Ea. destruct Ea as [gi [Hg Hf]].
    pose proof (plain_eq _ _ Eb) as Pb. cbn [part_frontends]. rewrite flat_map_app, Hf, Pb, app_nil_r by solve_plain.
    apply mapM_frontends; assumption.
  - cbn [to_grpc] in H. unfold complex_part in H.
    destruct (build_config _) as [cfg|] eqn:E; [|discriminate]. injection H as <-.
    apply build_config_app in E. destruct E as [ca [cb [Ea [Eb ->]]]].
    match type of Ea with build_config [?a1;?a2;?a3;?a4;?a5] = _ =>
      change [a1;a2;a3;a4;a5] with ([a1;a2;a3;a4] ++ [a5]) in Ea end.
    apply build_config_app in Ea. destruct Ea as [c1 [c2 [E1 [E2 ->]]]].
    apply pipeline_append_frontends in E2. destruct E2 as [gi [Hg Hf]].
    cbn [part_frontends part_callbacks map part_uuid]. f_equal.
    pose proof (plain_eq _ _ E1) as P1. pose proof (plain_eq _ _ Eb) as Pb.
    rewrite !flat_map_app, Hf, P1, Pb by solve_plain.
    cbn. rewrite app_nil_r. apply mapM_frontends; assumption.
  - cbn [to_grpc] in H. destruct (convert_parts to_grpc l); discriminate H.
  - discriminate H.
Qed.

Lemma pipeline_frontends l g : pipeline_grpc l = Ok g ->
  flat_map part_frontends g = map (fun p => uuid_str (part_uuid p)) (callbacks l).
Proof.
  intros H. apply mapM_frontends; [|exact H].
  apply Forall_forall. intros p _ g'. apply to_grpc_frontends.
Qed.

(** A PrintEventlogInfoBeforeAfter anywhere makes the conversion fail. *)
Lemma mapM_Err_In {A B} (f : A -> result B) l x :
  In x l -> (exists e, f x = Err e) -> exists e, mapM f l = Err e.
Proof.
  intros Hin [e He]. induction l as [|y l IH]; [destruct Hin|].
  cbn. destruct Hin as [->|Hin].
  - rewrite He. exists e. reflexivity.
  - destruct (f y); [|eexists; reflexivity]. cbn. destruct (IH Hin) as [e' ->]. eexists; reflexivity.
Qed.

Lemma build_config_Err_In l k r e : In (k, r) l -> r = Err e -> exists e', build_config l = Err e'.
Proof.
  intros Hin ->. unfold build_config.
  apply (mapM_Err_In _ _ (k, Err e)); [exact Hin|]. exists e. reflexivity.
Qed.

Lemma holds_Err q inner : holds q inner -> (exists e, convert_parts to_grpc inner = Err e) -> exists e, to_grpc q = Err e.
Proof.
  intros Hh [e He]. destruct Hh; cbn [to_grpc].
  - unfold default_part. destruct (build_config_Err_In
      (until_appends c (Some (convert_parts to_grpc l))) const_pipeline (Err e) e) as [e' ->].
    + unfold until_appends. rewrite He. apply in_or_app. right. apply in_or_app. right. left. reflexivity.
    + reflexivity.
    + exists e'. reflexivity.
  - rewrite He. exists e. reflexivity.
  - unfold complex_part. match goal with |- context [build_config ?l] =>
      destruct (build_config_Err_In l const_pipeline (Err e) e) as [e' ->] end.
    + rewrite He. cbn. tauto.
    + reflexivity.
    + exists e'. reflexivity.
  - rewrite He. exists e. reflexivity.
Qed.

Lemma inside_Err p l : (exists e, to_grpc p = Err e) -> inside p l -> exists e, convert_parts to_grpc l = Err e.
Proof.
  intros He Hi. induction Hi as [l Hin|q l inner Hin Hh _ IH].
  - rewrite convert_parts_mapM. apply (mapM_Err_In _ _ _ Hin He).
  - rewrite convert_parts_mapM. apply (mapM_Err_In _ _ _ Hin). apply (holds_Err _ _ Hh IH).
Qed.

Lemma before_after_Err u inner l : inside (PBeforeAfter u inner) l -> exists e, pipeline_grpc l = Err e.
Proof.
  apply inside_Err. cbn [to_grpc]. destruct (convert_parts to_grpc inner); eexists; reflexivity.
Qed.

(** * C42 *)

Lemma last_value_snoc values k v k2 v2 :
  last_value (values ++ [(k, v)]) k2 v2 <-> (k2 = k /\ v2 = v) \/ (k2 <> k /\ last_value values k2 v2).
Proof.
  split.
  - intros [a [b [E Hb]]]. destruct b as [|x b] using rev_ind.
    + apply app_inj_tail in E. destruct E as [_ E]. injection E as -> ->. left; auto.
    + clear IHb. rewrite app_comm_cons, app_assoc in E. apply app_inj_tail in E. destruct E as [-> <-].
      rewrite map_app, in_app_iff in Hb. right. split.
      * intros ->. apply Hb. right. left. reflexivity.
      * exists a, b. split; [reflexivity|]. intros H. apply Hb. left; exact H.
  - intros [[-> ->]|[Hne [a [b [-> Hb]]]]].
    + exists values, []. split; [reflexivity|intros []].
    + exists a, (b ++ [(k, v)]). split; [rewrite <- app_assoc; reflexivity|].
      rewrite map_app, in_app_iff. cbn. intros [H|[H|[]]]; [exact (Hb H)|congruence].
Qed.

Lemma values_dict_gathers values : gathers values (values_dict values).
Proof.
  unfold values_dict. induction values as [|[k v] values IH] using rev_ind.
  - split; [constructor|]. intros k v. cbn. split; [intros []|]. intros [a [b [H _]]]. destruct a; discriminate.
  - rewrite fold_left_app. cbn [fold_left fst snd].
    match goal with |- context [fold_left ?f values ?z] => set (d := fold_left f values z) in * end. clearbody d. destruct IH as [Hnd Hin].
    assert (Hnd' : NoDup (dkeys (dset str_eq_dec d k v))) by (apply dset_NoDup; exact Hnd).
    split; [exact Hnd'|].
    intros k2 v2. rewrite last_value_snoc, <- Hin. split.
    + intros H. apply In_dget with (eqd := str_eq_dec) in H; [|exact Hnd'].
      rewrite dget_dset in H. destruct (str_eq_dec k k2) as [->|Hne].
      * injection H as <-. left; auto.
      * right. split; [congruence|]. apply dget_In in H. exact H.
    + intros H. apply dget_In with (eqd := str_eq_dec). rewrite dget_dset.
      destruct H as [[-> ->]|[Hne H]].
      * destruct (str_eq_dec k k); congruence.
      * destruct (str_eq_dec k k2); [congruence|]. apply In_dget; assumption.
Qed.

Lemma registry_get l u :
  match dget N.eq_dec (registry l) u with
  | Some p => In p l /\ part_uuid p = u
  | None => forall p, In p l -> part_uuid p <> u
  end.
Proof.
  unfold registry. induction l as [|q l IH] using rev_ind.
  - cbn. intros p [].
  - rewrite fold_left_app. cbn [fold_left]. match goal with |- context [fold_left ?f l ?z] => set (d := fold_left f l z) in * end. clearbody d.
    rewrite dget_dset. destruct (N.eq_dec (part_uuid q) u) as [<-|Hne].
    + split; [apply in_or_app; right; left|]; reflexivity.
    + destruct (dget N.eq_dec d u) as [p|].
      * destruct IH as [H1 H2]. split; [apply in_or_app; left|]; assumption.
      * intros p. rewrite in_app_iff. cbn. intros [H|[<-|[]]]; [apply IH, H|exact Hne].
Qed.

Section Exec.
  Context {W : Type}.
  Variable callback : part -> dict pystr gvalue -> W -> W * result unit.
  Variable print : pystr -> W -> W.

  (** The last message of a non-empty stream prefix. *)
  Definition last_of (msgs : list gmessage) (last : option gmessage) : option gmessage :=
    match rev msgs with m :: _ => Some m | [] => last end.

  Lemma last_of_cons m msgs last : last_of (m :: msgs) last = last_of msgs (Some m).
  Proof.
    unfold last_of. cbn [rev]. destruct (rev msgs); reflexivity.
  Qed.

  (** The loop on a prefix of ordinary messages performs the delivered actions. *)
  Lemma receive_prefix cbs pre rest failure last w :
    Forall ordinary pre ->
    exists acts,
      deliver (fun p => In p cbs) pre acts /\
      receive W callback print (registry cbs) (pre ++ rest) failure last w =
        match perform callback print acts w with
        | (w', Ok _) => receive W callback print (registry cbs) rest failure (last_of pre last) w'
        | (w', Err e) => (w', Err e)
        end.
  Proof.
    intros HF. revert last w. induction HF as [|m pre Hm _ IH]; intros last w.
    - exists []. split; [constructor|]. reflexivity.
    - destruct m as [f|id values|s|]; cbn [app receive].
      + destruct Hm.
      + destruct Hm as [u [Hu ->]]. rewrite (uuid_parse_str u Hu).
        pose proof (registry_get cbs u) as Hr. destruct (dget N.eq_dec (registry cbs) u) as [p|].
        * destruct Hr as [Hp Hpu].
          destruct (callback p (values_dict values) w) as [w' r] eqn:Ec.
          destruct (IH (Some (MPart (uuid_str u) values)) w') as [acts [Hd He]].
          exists (Call p (values_dict values) :: acts). split.
          -- apply deliver_call; auto. apply values_dict_gathers.
          -- cbn [perform]. rewrite Ec. destruct r as [x|e]; [|reflexivity].
             rewrite He, last_of_cons. reflexivity.
        * destruct (IH (Some (MPart (uuid_str u) values)) w) as [acts [Hd He]].
          exists acts. split; [apply deliver_stranger; assumption|].
          rewrite He, last_of_cons. reflexivity.
      + destruct (IH (Some (MLog s)) (print s w)) as [acts [Hd He]].
        exists (Say s :: acts). split; [constructor; exact Hd|].
        cbn [perform]. rewrite He, last_of_cons. reflexivity.
      + destruct (IH (Some MUnset) w) as [acts [Hd He]].
        exists acts. split; [constructor; exact Hd|].
        rewrite He, last_of_cons. reflexivity.
  Qed.
End Exec.

Lemma sent_callbacks parts g : pipeline_grpc parts = Ok g ->
  forall p, In p (callbacks parts) <-> inside p parts /\ bears_callback p.
Proof.
  intros Hg p. apply callbacks_exact. intros u i Hi.
  destruct (before_after_Err _ _ _ Hi) as [e He]. congruence.
Qed.

Lemma deliver_ext (A B : part -> Prop) : (forall p, A p <-> B p) ->
  forall msgs acts, deliver A msgs acts -> deliver B msgs acts.
Proof.
  intros H msgs acts D. induction D; try (constructor; assumption).
  - apply deliver_call; auto. apply H. assumption.
  - apply deliver_stranger; auto. intros p Hp. apply H1. apply H. exact Hp.
Qed.

Lemma gathers_unique values d d' : gathers values d -> gathers values d' ->
  forall k v, In (k, v) d <-> In (k, v) d'.
Proof. intros [_ H] [_ H'] k v. rewrite H, H'. reflexivity. Qed.

Lemma Forall2_impl {A B} (P Q : A -> B -> Prop) l m :
  (forall x y, P x y -> Q x y) -> Forall2 P l m -> Forall2 Q l m.
Proof. intros H F. induction F; constructor; auto. Qed.

Lemma forallb_filter_id {A} (f : A -> bool) l : forallb f l = true -> filter f l = l.
Proof.
  induction l as [|x l IH]; [reflexivity|]. cbn. intros H. apply andb_true_iff in H. destruct H as [-> H].
  rewrite IH by exact H. reflexivity.
Qed.

Lemma ddel_filter {V} (d : dict pystr V) k : NoDup (map fst d) ->
  ddel str_eq_dec d k = filter (fun kv => if str_eq_dec (fst kv) k then false else true) d.
Proof.
  induction d as [|[k' v'] d IH]; intros Hnd; [reflexivity|].
  inversion Hnd as [|? ? Hni Hnd']; subst. cbn [ddel filter fst].
  destruct (str_eq_dec k k') as [->|Hne].
  - destruct (str_eq_dec k' k') as [_|X]; [|congruence]. symmetry.
    apply forallb_filter_id. apply forallb_forall. intros [k2 v2] Hin. cbn [fst].
    destruct (str_eq_dec k2 k') as [->|]; [|reflexivity].
    exfalso. apply Hni. apply (in_map fst) in Hin. exact Hin.
  - destruct (str_eq_dec k' k) as [->|_]; [congruence|]. f_equal. apply IH, Hnd'.
Qed.

Section Exec2.
  Context {W : Type}.
  Variable callback : part -> dict pystr gvalue -> W -> W * result unit.
  Variable print : pystr -> W -> W.
  Variable server : pystr -> grequest -> list gmessage * option exc.
  Variable drop : pystr -> result unit.

  Lemma execute_stages parts ctx w a req :
    o_addr (execute W callback print server drop parts ctx w) = Some a ->
    o_request (execute W callback print server drop parts ctx w) = Some req ->
    forall msgs failure, server a req = (msgs, failure) ->
    exists g, pipeline_grpc parts = Ok g /\
    let r := receive W callback print (registry (callbacks parts)) msgs failure None w in
    let out := execute W callback print server drop parts ctx w in
    o_world out = fst r /\
    o_drop out = match snd r with Ok (Some (MFinal (FSuccess g))) => Some g | _ => None end /\
    o_result out = match snd r with
                   | Err e => Err e
                   | Ok None => Err AttributeError
                   | Ok (Some (MFinal (FSuccess g))) =>
                       match drop g with Ok _ => Ok (MFinal (FSuccess g)) | Err e => Err e end
                   | Ok (Some m) => Ok m
                   end.
  Proof.
    unfold execute.
    set (ctx' := if dmem str_eq_dec ctx backend_key then _ else _). clearbody ctx'.
    destruct (match dget str_eq_dec ctx backend_key with Some v => v | None => CPlain default_addr end);
      try (cbn; intros _ H; discriminate H).
    destruct (pipeline_grpc parts) as [g|] eqn:Eg; [|cbn; intros _ H; discriminate H].
    destruct (initial_context_grpc ctx') as [c|]; [|cbn; intros _ H; discriminate H].
    destruct (server s (mkReq g c)) as [msgs0 failure0] eqn:Es.
    destruct (receive W callback print (registry (callbacks parts)) msgs0 failure0 None w) as [w' r] eqn:Er.
    intros Ha Hr msgs failure Hs.
    assert (s = a /\ mkReq g c = req) as [-> <-].
    { destruct r as [[[[]| | |]|]|]; cbn in Ha, Hr; split; congruence. }
    rewrite Es in Hs. injection Hs as -> ->. exists g. split; [reflexivity|].
    cbv zeta. rewrite Er. cbn [fst snd].
    destruct r as [[[[]| | |]|]|]; cbn; auto.
  Qed.

  Lemma execute_results_proof parts ctx w a req pre rest failure :
    let out := execute W callback print server drop parts ctx w in
    o_addr out = Some a -> o_request out = Some req ->
    server a req = (pre ++ rest, failure) ->
    Forall ordinary pre ->
    exists acts,
      deliver (fun p => inside p parts /\ bears_callback p) pre acts /\
      (forall e, snd (perform callback print acts w) = Err e ->
         o_world out = fst (perform callback print acts w) /\ o_result out = Err e /\ o_drop out = None) /\
      (snd (perform callback print acts w) = Ok tt ->
         (forall f r, rest = MFinal f :: r ->
            o_world out = fst (perform callback print acts w) /\
            (forall g, o_drop out = Some g <-> f = FSuccess g) /\
            (forall g, f = FSuccess g -> o_result out = match drop g with Ok _ => Ok (MFinal f) | Err e => Err e end) /\
            ((forall g, f <> FSuccess g) -> o_result out = Ok (MFinal f))) /\
         (rest = [] ->
            o_world out = fst (perform callback print acts w) /\
            o_drop out = None /\
            (forall e, failure = Some e -> o_result out = Err e) /\
            (failure = None -> pre = [] -> o_result out = Err AttributeError) /\
            (forall p m, failure = None -> pre = p ++ [m] -> o_result out = Ok m)) /\
         (forall id values r, rest = MPart id values :: r ->
            (forall c, In c id -> c = 45%N \/ unhex c <> None) ->
            length (filter (fun c => negb (c =? 45)%N) id) <> 32 ->
            o_world out = fst (perform callback print acts w) /\
            o_result out = Err ValueError /\ o_drop out = None)).
  Proof.
    cbv zeta. intros Ha Hr Hs HF.
    destruct (execute_stages parts ctx w a req Ha Hr _ _ Hs) as [g [Hg [Hw [Hd Hres]]]].
    destruct (receive_prefix callback print (callbacks parts) pre rest failure None w HF) as [acts [HD HE]].
    exists acts. split.
    { eapply deliver_ext; [|exact HD]. intros p. apply (sent_callbacks _ _ Hg). }
    rewrite HE in Hw, Hd, Hres. clear HE HD Hs.
    destruct (perform callback print acts w) as [w' [[]|e]]; cbn [fst snd] in *.
    2:{ split; [|intros H; discriminate H]. intros e' H. injection H as <-. auto. }
    split; [intros e H; discriminate H|]. intros _.
    split; [|split].
    - intros f r ->. cbn [receive fst snd] in *.
      split; [exact Hw|]. rewrite Hd, Hres. destruct f as [gu|m|].
      + split; [intros g'; split; intros H; injection H as <-; reflexivity|].
        split; [intros g' H; injection H as <-; reflexivity|]. intros H. exfalso. apply (H gu). reflexivity.
      + split; [intros g'; split; intros H; discriminate H|].
        split; [intros g' H; discriminate H|]. intros _. reflexivity.
      + split; [intros g'; split; intros H; discriminate H|].
        split; [intros g' H; discriminate H|]. intros _. reflexivity.
    - intros ->. cbn [receive fst snd] in *. split; [exact Hw|].
      assert (Hlast : match last_of pre None with Some (MFinal _) => False | _ => True end).
      { unfold last_of. destruct (rev pre) as [|m l] eqn:E; [exact I|].
        assert (In m pre) by (apply in_rev; rewrite E; left; reflexivity).
        rewrite Forall_forall in HF. specialize (HF _ H). destruct m; auto. }
      destruct failure as [e|].
      + split; [exact Hd|]. split; [intros e' H; injection H as <-; exact Hres|].
        split; [intros H; discriminate H|intros ? ? H; discriminate H].
      + split; [|split; [intros e' H; discriminate H|split]].
        * rewrite Hd. destruct (last_of pre None) as [[]|]; auto. destruct Hlast.
        * intros _ ->. exact Hres.
        * intros p m _ ->. unfold last_of in *. rewrite rev_app_distr in *. cbn in *.
          destruct m; auto. destruct Hlast.
    - intros id values r -> Hc Hlen. cbn [receive] in *. unfold uuid_parse in *.
      destruct (length (filter (fun c => negb (c =? 45)%N) id) =? 32) eqn:E.
      + apply Nat.eqb_eq in E. contradiction.
      + cbn [fst snd] in *. auto.
  Qed.

  Lemma execute_address_proof parts ctx w :
    NoDup (map fst ctx) ->
    let out := execute W callback print server drop parts ctx w in
    o_ctx out = filter (fun kv => if str_eq_dec (fst kv) (str "backend") then false else true) ctx /\
    (forall a, In (str "backend", CPlain a) ctx -> o_addr out = Some a) /\
    (~ In (str "backend") (map fst ctx) -> o_addr out = Some (str "localhost:8080")) /\
    (forall req, o_request out = Some req ->
       o_addr out <> None /\
       Forall2 (fun kv gv => fst gv = fst kv /\ ctxval_grpc (snd kv) = Ok (snd gv)) (o_ctx out) (rq_context req)).
  Proof.
    intros Hnd. cbv zeta.
    pose proof (fun v => In_dget str_eq_dec ctx backend_key v Hnd) as HIn.
    assert (Hnone : ~ In (str "backend") (map fst ctx) -> dget str_eq_dec ctx backend_key = None).
    { intros H. destruct (dget str_eq_dec ctx backend_key) as [v|] eqn:E; [|reflexivity].
      exfalso. apply H. apply dget_In in E. apply (in_map fst) in E. exact E. }
    unfold execute.
    set (ctx' := if dmem str_eq_dec ctx backend_key then _ else _).
    assert (Hctx : ctx' = filter (fun kv => if str_eq_dec (fst kv) (str "backend") then false else true) ctx).
    { unfold ctx'. destruct (dmem str_eq_dec ctx backend_key) eqn:E.
      - apply ddel_filter. exact Hnd.
      - symmetry. apply forallb_filter_id. apply forallb_forall. intros [k v] Hin. cbn [fst].
        destruct (str_eq_dec k (str "backend")) as [->|]; [|reflexivity].
        apply (in_map fst) in Hin. cbn [fst] in Hin.
        assert (dmem str_eq_dec ctx backend_key = true) by (apply dmem_In; exact Hin). congruence. }
    clearbody ctx'.
    assert (Hconv : forall c, initial_context_grpc ctx' = Ok c ->
      Forall2 (fun kv gv => fst gv = fst kv /\ ctxval_grpc (snd kv) = Ok (snd gv)) ctx' c).
    { intros c H. apply mapM_ok_inv in H. eapply Forall2_impl; [|exact H].
      intros [k v] [k' gv]. cbn. unfold pb_string. destruct (existsb _ k); [intros X; discriminate X|].
      cbn. destruct (ctxval_grpc v); [|intros X; discriminate X]. cbn. intros X. injection X as <- <-. auto. }
    assert (Haddr : (forall a, In (str "backend", CPlain a) ctx ->
                     match dget str_eq_dec ctx backend_key with Some v => v | None => CPlain default_addr end = CPlain a)
                    /\ (~ In (str "backend") (map fst ctx) ->
                     match dget str_eq_dec ctx backend_key with Some v => v | None => CPlain default_addr end
                     = CPlain (str "localhost:8080"))).
    { split; [intros a Ha; rewrite (HIn _ Ha); reflexivity|].
      intros H. rewrite (Hnone H). reflexivity. }
    destruct Haddr as [Ha1 Ha2].
    destruct (match dget str_eq_dec ctx backend_key with Some v => v | None => CPlain default_addr end) as [s| | | | | | | | | | |] eqn:Eaddr;
      try (cbn; split; [exact Hctx|]; split; [intros a H; specialize (Ha1 a H); discriminate Ha1|];
           split; [intros H; specialize (Ha2 H); discriminate Ha2|]; intros r H; discriminate H).
    assert (Ha1' : forall a, In (str "backend", CPlain a) ctx -> Some s = Some a) by (intros a H; specialize (Ha1 a H); congruence).
    assert (Ha2' : ~ In (str "backend") (map fst ctx) -> Some s = Some (str "localhost:8080")) by (intros H; specialize (Ha2 H); congruence).
    clear Ha1 Ha2.
    destruct (pipeline_grpc parts) as [g|] eqn:Eg;
      [|cbn; split; [exact Hctx|]; split; [exact Ha1'|]; split; [exact Ha2'|]; intros r H; discriminate H].
    destruct (initial_context_grpc ctx') as [c|] eqn:Ec;
      [|cbn; split; [exact Hctx|]; split; [exact Ha1'|]; split; [exact Ha2'|]; intros r H; discriminate H].
    specialize (Hconv c eq_refl).
    destruct (server s (mkReq g c)) as [msgs0 failure0].
    destruct (receive W callback print (registry (callbacks parts)) msgs0 failure0 None w) as [w' r].
    destruct r as [[[[]| | |]|]|]; cbn;
      (split; [exact Hctx|]; split; [exact Ha1'|]; split; [exact Ha2'|]; intros req H; injection H as <-;
       split; [discriminate|exact Hconv]).
  Qed.

  (** Nothing is sent when the pipeline or a context value cannot be converted. *)
  Lemma execute_not_sent_proof parts ctx w :
    let out := execute W callback print server drop parts ctx w in
    o_request out = None -> o_world out = w /\ o_drop out = None /\ exists e, o_result out = Err e.
  Proof.
    cbv zeta. unfold execute.
    destruct (match dget str_eq_dec ctx backend_key with Some v => v | None => CPlain default_addr end);
      try solve [cbn; intros _; eauto].
    destruct (pipeline_grpc parts) as [g|]; [|cbn; eauto].
    destruct (initial_context_grpc _) as [c|]; [|cbn; eauto].
    destruct (server s (mkReq g c)) as [msgs0 failure0].
    destruct (receive W callback print (registry (callbacks parts)) msgs0 failure0 None w) as [w' r].
    destruct r as [[[[]| | |]|]|]; cbn; intros H; discriminate H.
  Qed.
End Exec2.

(** Deliveries are determined: same parts in the same order, equal dicts. *)
Definition same_action (x y : action) : Prop :=
  match x, y with
  | Call p d, Call q e => p = q /\ forall k v, In (k, v) d <-> In (k, v) e
  | Say s, Say t => s = t
  | _, _ => False
  end.

Lemma deliver_part_inv cbs id values msgs acts :
  deliver cbs (MPart id values :: msgs) acts ->
  (exists p d acts', cbs p /\ uuid_parse id = Ok (part_uuid p) /\ gathers values d /\
     deliver cbs msgs acts' /\ acts = Call p d :: acts') \/
  ((forall p, cbs p -> uuid_parse id <> Ok (part_uuid p)) /\ deliver cbs msgs acts).
Proof.
  intros H. remember (MPart id values :: msgs) as l eqn:E.
  destruct H as [|u values' p d msgs' acts Hu Hp Hpu Hg HD|u values' msgs' acts Hu Hn HD|s msgs' acts HD|msgs' acts HD].
  - discriminate E.
  - remember (uuid_str u) as us eqn:Eu. injection E as -> -> ->. subst id.
    left. exists p, d, acts. rewrite (uuid_parse_str u Hu). repeat split; auto; try congruence; apply Hg.
  - remember (uuid_str u) as us eqn:Eu. injection E as -> -> ->. subst id.
    right. split; [|exact HD]. intros p Hp. rewrite (uuid_parse_str u Hu). intros X. apply (Hn p Hp). congruence.
  - discriminate E.
  - discriminate E.
Qed.

Lemma deliver_determined_proof parts msgs acts acts' :
  distinct_uuids parts ->
  deliver (fun p => inside p parts /\ bears_callback p) msgs acts ->
  deliver (fun p => inside p parts /\ bears_callback p) msgs acts' ->
  Forall2 same_action acts acts'.
Proof.
  intros HD H. revert acts'.
  induction H as [|u values p d msgs acts Hu [Hp1 Hp2] Hpu Hg _ IH
                  |u values msgs acts Hu Hn _ IH|s msgs acts _ IH|msgs acts _ IH]; intros acts' H'.
  - inversion H'; subst. constructor.
  - apply deliver_part_inv in H'. destruct H' as [[q [e [acts2 [Hq [Hqu [He [HD2 ->]]]]]]]|[Hn HD2]].
    + constructor; [|apply IH; assumption]. destruct Hq as [Hq1 Hq2]. split.
      * apply HD; auto.
        rewrite (uuid_parse_str u Hu) in Hqu. congruence.
      * apply (gathers_unique _ _ _ Hg He).
    + exfalso. apply (Hn p); auto. rewrite (uuid_parse_str u Hu). congruence.
  - apply deliver_part_inv in H'. destruct H' as [[q [e [acts2 [Hq [Hqu [He [HD2 ->]]]]]]]|[_ HD2]].
    + exfalso. apply (Hn q); auto. rewrite (uuid_parse_str u Hu) in Hqu. congruence.
    + apply IH. assumption.
  - inversion H'; subst. constructor; [reflexivity|]. apply IH. assumption.
  - inversion H'; subst. apply IH. assumption.
Qed.
