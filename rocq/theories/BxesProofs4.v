(** Proofs about BXES files: the order of tables does not matter. *)
From Coq Require Import Permutation.
From Verif Require Import Py PyFacts HashModel RXesModel RXesProofs PnmlProofs BxesModel BxesSpec BxesProofs BxesProofs2 PnmlSpec.

Section Proofs.
  Variables date f32 f64 other : Type.
  Variables (nanos : date -> option Z) (of_nanos : Z -> date).
  Variables (date_eqb : date -> date -> bool) (f32_eqb : f32 -> f32 -> bool) (f64_eqb : f64 -> f64 -> bool).
  Notation epv := (epv date f32 f64).
  Notation elog := (elog date f32 f64).
  Notation eevent := (eevent date f32 f64).
  Notation bval := (bval f32 f64 other).
  Notation bevent := (bevent f32 f64 other).
  Notation blog := (blog f32 f64 other).
  Notation wval := (payload_value_to_bxes_value date f32 f64 other nanos).
  Notation rval := (bxes_value_to_payload_value date f32 f64 other of_nanos).
  Notation wpair := (kv_pair_to_bxes_pair date f32 f64 other nanos).
  Notation rpair := (read_pair date f32 f64 other of_nanos).
  Notation rpairs := (read_pairs date f32 f64 other of_nanos).
  Notation turns := (turns date f32 f64 nanos of_nanos).
  Notation table_turns := (table_turns date f32 f64 nanos of_nanos).
  Notation default := (default date f32 f64 date_eqb f32_eqb f64_eqb).
  Notation fits := (fits date f32 f64 nanos).
  Notation notdef := (is_not_default date f32 f64 date_eqb f32_eqb f64_eqb).
  Notation wevent := (create_bxes_event date f32 f64 other nanos date_eqb f32_eqb f64_eqb).
  Notation revent := (create_xes_event date f32 f64 other of_nanos).
  Notation wglobals := (create_bxes_globals date f32 f64 other nanos).
  Notation wtraces := (create_bxes_traces date f32 f64 other nanos date_eqb f32_eqb f64_eqb).
  Notation wlog := (write_event_log_to_bxes date f32 f64 other nanos date_eqb f32_eqb f64_eqb).
  Notation rlog := (read_bxes_into_xes_log date f32 f64 other of_nanos).
  Notation log_turns := (log_turns date f32 f64 nanos of_nanos date_eqb f32_eqb f64_eqb).
  Notation tables := (tables date f32 f64).

  Lemma same_perm {V} (m m' : dict pystr V) : NoDup (map fst m) -> NoDup (map fst m') -> same_table m m' -> Permutation m m'.
  Proof.
    intros N N' S. apply NoDup_Permutation; [exact (NoDup_map_inv _ _ N)|exact (NoDup_map_inv _ _ N')|]. intros [k v]. split; intros H.
    - apply (dget_In str_eq_dec). rewrite <- (S k). apply In_dget; assumption.
    - apply (dget_In str_eq_dec). rewrite (S k). apply In_dget; assumption.
  Qed.
  Lemma perm_sort {V} (m m' : dict pystr V) : NoDup (map fst m) -> Permutation m m' -> sort_by_first m = sort_by_first m'.
  Proof.
    intros N P. apply (keyed_unique fst).
    - eapply Permutation_trans; [apply Permutation_sym, sort_perm|]. eapply Permutation_trans; [exact P|apply sort_perm].
    - apply sort_nodup, N.
    - apply sort_sorted.
    - apply sort_sorted.
  Qed.
  Lemma same_sort {V} (m m' : dict pystr V) : NoDup (map fst m) -> NoDup (map fst m') -> same_table m m' -> sort_by_first m = sort_by_first m'.
  Proof. intros N N' S. apply perm_sort; [exact N|]. apply same_perm; assumption. Qed.
  Lemma mapM_ext2 {A B} (f f' : A -> result B) (R : A -> A -> Prop) l l' : Forall2 R l l' -> (forall x y, In x l -> In y l' -> R x y -> f x = f' y) -> mapM f l = mapM f' l'.
  Proof.
    induction 1 as [|x y l l' H F IH]; intros E; [reflexivity|]. cbn [mapM]. rewrite (E x y (or_introl eq_refl) (or_introl eq_refl) H), IH; [reflexivity|].
    intros x0 y0 Hx Hy. apply E; right; assumption.
  Qed.
  Lemma same_file_proof log log' : tables log -> tables log' -> same_log date f32 f64 log log' -> wlog log = wlog log'.
  Proof.
    intros (N1 & N2 & N3) (N1' & N2' & N3') [S1 S2 S3 S4 S5].
    assert (G : wglobals log = wglobals log').
    { unfold create_bxes_globals. f_equal. apply perm_sort; [rewrite map_map; exact N1|]. apply NoDup_Permutation.
      - apply (NoDup_map_inv fst). rewrite map_map. exact N1.
      - apply (NoDup_map_inv fst). rewrite map_map. exact N1'.
      - intros [s x]. split; intros H; apply in_map_iff in H; destruct H as ([s0 g] & E & H); cbn [fst snd] in E; injection E as -> <-.
        + assert (D := In_dget str_eq_dec _ _ _ N1 H). specialize (S4 s). rewrite D in S4. destruct S4 as (g' & V & T). apply dget_In in V.
          apply in_map_iff. exists (s, g'). split; [|exact V]. cbn [fst snd]. f_equal. symmetry. apply same_sort; [exact (N2 s g H)|exact (N2' s g' V)|exact T].
        + assert (D := In_dget str_eq_dec _ _ _ N1' H). specialize (S4 s). destruct (dget str_eq_dec (e_globals _ _ _ log) s) as [g'|] eqn:D'; [|unfold value_of in S4; congruence].
          destruct S4 as (g2 & V & T). unfold value_of in V. rewrite D in V. injection V as <-. apply dget_In in D'.
          apply in_map_iff. exists (s, g'). split; [|exact D']. cbn [fst snd]. f_equal. apply same_sort; [exact (N2 s g' D')|exact (N2' s g H)|exact T]. }
    assert (D : forall kv, notdef log kv = notdef log' kv).
    { intros kv. unfold is_not_default. specialize (S4 (str "event")). unfold value_of in S4. destruct (dget str_eq_dec (e_globals _ _ _ log) (str "event")) as [g|].
      - destruct S4 as (g' & -> & T). rewrite (T (fst kv)). reflexivity.
      - rewrite S4. reflexivity. }
    assert (T : wtraces log = wtraces log').
    { unfold create_bxes_traces. apply (mapM_ext2 _ _ _ _ _ S5). intros t t' Ht Ht' F. f_equal. apply (mapM_ext2 _ _ _ _ _ F). intros e e' He He' (En & Et & Ep).
      unfold create_bxes_event. rewrite En, Et. rewrite (same_sort _ _ (N3 t e Ht He) (N3' t' e' Ht' He') Ep). rewrite (filter_ext _ _ D). reflexivity. }
    unfold write_event_log_to_bxes, create_bxes_classifiers, create_bxes_extensions. rewrite G, T, S1, S2, S3. reflexivity.
  Qed.
  (** What the events of a file are: keys in order, nothing twice, and no defaults; each variant stands for one trace. *)
  Lemma file_event log e b : NoDup (map fst (e_payload _ _ _ e)) -> wevent log e = Ok b ->
    exists kvs, map fst kvs = map fst (filter (notdef log) (sort_by_first (e_payload _ _ _ e))) /\
      b_attributes _ _ _ b = Some (map (fun kv => (BString _ _ _ (fst kv), snd kv)) kvs).
  Proof.
    intros N. unfold create_bxes_event. destruct (timestamp_nanos _ _ _); cbn [bind]; [|discriminate]. destruct (mapM wpair _) as [ps|] eqn:W; cbn [bind]; [|discriminate].
    intros [= <-]. cbn [b_attributes]. apply mapM_ok_inv in W. revert W. generalize (filter (notdef log) (sort_by_first (e_payload _ _ _ e))). intros l F.
    assert (X : exists kvs : list (pystr * bval), map fst kvs = map fst l /\ ps = map (fun kv => (BString _ _ _ (fst kv), snd kv)) kvs).
    { induction F as [|[k v] p l ps E F IH]; [exists []; split; reflexivity|]. destruct IH as (kvs & K & ->). unfold kv_pair_to_bxes_pair in E. cbn [fst snd] in E.
      destruct (wval v) as [w|]; [|discriminate]. injection E as <-. exists ((k, w) :: kvs). cbn. rewrite K. split; reflexivity. }
    destruct X as (kvs & K & ->). eauto.
  Qed.
  Lemma file_proof log b : tables log -> wlog log = Ok b -> forall v, In v (bl_variants _ _ _ b) -> b_count _ _ _ v = 1%N /\
    forall e, In e (b_events _ _ _ v) -> exists kvs, b_attributes _ _ _ e = Some (map (fun kv => (BString _ _ _ (fst kv), snd kv)) kvs) /\ NoDup (map fst kvs) /\ sorted_on fst kvs.
  Proof.
    intros (N1 & N2 & N3). unfold write_event_log_to_bxes. destruct (wglobals log) as [gs|]; cbn [bind]; [|discriminate].
    destruct (mapM wpair (e_props _ _ _ log)) as [ps|]; cbn [bind]; [|discriminate]. destruct (wtraces log) as [vs|] eqn:T; cbn [bind]; [|discriminate]. intros [= <-].
    cbn [bl_variants]. intros v Hv. unfold create_bxes_traces in T. apply mapM_ok_inv in T.
    assert (X : exists t, In t (e_traces _ _ _ log) /\ bind (mapM (wevent log) t) (fun es => Ok (mkBVariant _ _ _ 1 es)) = Ok v).
    { clear -T Hv. induction T as [|t v' ts vs E T IH]; [contradiction|]. destruct Hv as [->|Hv]; [exists t; split; [left; reflexivity|exact E]|].
      destruct (IH Hv) as (t' & H & E'). exists t'. split; [right; exact H|exact E']. }
    destruct X as (t & Ht & E). destruct (mapM (wevent log) t) as [es|] eqn:W; cbn [bind] in E; [|discriminate]. injection E as <-. split; [reflexivity|]. cbn [b_events].
    intros b Hb. apply mapM_ok_inv in W. assert (Y : exists e, In e t /\ wevent log e = Ok b).
    { clear -W Hb. induction W as [|e b' t es E W IH]; [contradiction|]. destruct Hb as [->|Hb]; [exists e; split; [left; reflexivity|exact E]|].
      destruct (IH Hb) as (e' & H & E'). exists e'. split; [right; exact H|exact E']. }
    destruct Y as (e & He & Ee). destruct (file_event log e b (N3 t e Ht He) Ee) as (kvs & K & A). exists kvs. split; [exact A|].
    assert (N := filter_nodup (notdef log) _ (sort_nodup _ (N3 t e Ht He))). split; [rewrite K; exact N|].
    assert (S : sorted_on fst (filter (notdef log) (sort_by_first (e_payload _ _ _ e)))).
    { clear. unfold sorted_on. assert (S := sort_sorted (e_payload _ _ _ e)). induction S as [|x l S IH F]; cbn [filter]; [constructor|].
      destruct (notdef log x); [|exact IH]. constructor; [exact IH|]. apply Forall_forall. intros y Hy. apply filter_In in Hy. rewrite Forall_forall in F. apply F, Hy. }
    clear -S K. revert kvs K. unfold sorted_on in *. induction S as [|x l S IH F]; intros kvs K; destruct kvs as [|y kvs]; try discriminate; [constructor|].
    cbn [map] in K. injection K as K1 K2. constructor; [apply IH, K2|]. apply Forall_forall. intros z Hz. rewrite Forall_forall in F.
    assert (Hk : In (fst z) (map fst l)) by (rewrite <- K2; apply in_map, Hz). apply in_map_iff in Hk. destruct Hk as (z' & E & Hz'). rewrite K1, <- E. apply F, Hz'.
  Qed.
End Proofs.
