(** Proofs about BXES files. *)
From Coq Require Import Permutation.
From Verif Require Import Py PyFacts HashModel RXesModel RXesProofs PnmlProofs BxesModel BxesSpec.

Section Proofs.
  Variables date f32 f64 other : Type.
  Variables (nanos : date -> option Z) (of_nanos : Z -> date).
  Variables (date_eqb : date -> date -> bool) (f32_eqb : f32 -> f32 -> bool) (f64_eqb : f64 -> f64 -> bool).
  Notation epv := (epv date f32 f64).
  Notation elog := (elog date f32 f64).
  Notation eevent := (eevent date f32 f64).
  Notation bval := (bval f32 f64 other).
  Notation bevent := (bevent f32 f64 other).
  Notation blog := (blog f32 f64 other).
  Notation wval := (payload_value_to_bxes_value date f32 f64 other nanos).
  Notation rval := (bxes_value_to_payload_value date f32 f64 other of_nanos).
  Notation wpair := (kv_pair_to_bxes_pair date f32 f64 other nanos).
  Notation rpair := (read_pair date f32 f64 other of_nanos).
  Notation rpairs := (read_pairs date f32 f64 other of_nanos).
  Notation turns := (turns date f32 f64 nanos of_nanos).
  Notation table_turns := (table_turns date f32 f64 nanos of_nanos).
  Notation default := (default date f32 f64 date_eqb f32_eqb f64_eqb).
  Notation fits := (fits date f32 f64 nanos).
  Notation notdef := (is_not_default date f32 f64 date_eqb f32_eqb f64_eqb).
  Notation equal := (equal date f32 f64 date_eqb f32_eqb f64_eqb).
  Notation wevent := (create_bxes_event date f32 f64 other nanos date_eqb f32_eqb f64_eqb).
  Notation revent := (create_xes_event date f32 f64 other of_nanos).
  Notation wlog := (write_event_log_to_bxes date f32 f64 other nanos date_eqb f32_eqb f64_eqb).
  Notation rlog := (read_bxes_into_xes_log date f32 f64 other of_nanos).

  (** * Values *)
  Lemma value_back b : (forall z, nanos (of_nanos z) = Some z) -> understood f32 f64 other b -> exists v, rval b = Ok v /\ wval v = Ok b.
  Proof.
    intros H U. destruct b; cbn; try (eexists; split; reflexivity).
    - eexists. split; [reflexivity|]. cbn. unfold timestamp_nanos. rewrite H. reflexivity.
    - eexists. split; [reflexivity|]. destruct b; reflexivity.
    - eexists. split; [reflexivity|]. destruct s; reflexivity.
    - contradiction (U x eq_refl).
  Qed.
  Lemma epv_eqb_equal a b : epv_eqb date f32 f64 date_eqb f32_eqb f64_eqb a b = true <-> equal a b.
  Proof.
    split.
    - destruct a, b; cbn; try discriminate; intros H; try (constructor; exact H).
      + apply str_eqb_eq in H. subst. constructor.
      + apply Bool.eqb_prop in H. subst. constructor.
      + apply Z.eqb_eq in H. subst. constructor.
      + apply Z.eqb_eq in H. subst. constructor.
      + apply Z.eqb_eq in H. subst. constructor.
      + apply Z.eqb_eq in H. subst. constructor.
      + apply N.eqb_eq in H. subst. constructor.
      + apply Z.eqb_eq in H. subst. constructor.
      + destruct (xlifecycle_eq_dec l l0); [subst; constructor|discriminate].
    - intros []; cbn; auto using str_eqb_refl, Z.eqb_refl, N.eqb_refl.
      + destruct b0; reflexivity.
      + destruct (xlifecycle_eq_dec l l); [reflexivity|contradiction].
  Qed.
  Lemma notdef_iff log k v : notdef log (k, v) = true <-> ~ default log k v.
  Proof.
    unfold is_not_default, BxesSpec.default, value_of. cbn [fst snd]. destruct (dget str_eq_dec (e_globals _ _ _ log) (str "event")) as [g|].
    - destruct (dget str_eq_dec g k) as [d|] eqn:E.
      + rewrite Bool.negb_true_iff, <- Bool.not_true_iff_false, epv_eqb_equal. split.
        * intros H (g' & d' & [= <-] & E' & Q). rewrite E in E'. injection E' as <-. exact (H Q).
        * intros H Q. apply H. exists g, d. repeat split; assumption.
      + split; [|reflexivity]. intros _ (g' & d & [= <-] & E' & _). rewrite E in E'. discriminate.
    - split; [|reflexivity]. intros _ (g' & d & E' & _). discriminate.
  Qed.
  Lemma wval_ok v : (exists b, wval v = Ok b) <-> fits v.
  Proof.
    unfold BxesSpec.fits. split.
    - intros (b & H) d ->. cbn in H. unfold timestamp_nanos in H. destruct (nanos d); [discriminate|discriminate H].
    - intros H. destruct v; cbn; eauto. unfold timestamp_nanos. destruct (nanos d) eqn:E; cbn; eauto. contradiction (H d eq_refl).
  Qed.
  Lemma wval_err v e : wval v = Err e -> e = AssertionErr.
  Proof. destruct v; cbn; try discriminate. unfold timestamp_nanos. destruct (nanos d); cbn; [discriminate|]. intros [= <-]. reflexivity. Qed.
  Lemma rval_wval v b : wval v = Ok b -> exists w, rval b = Ok w /\ turns v w.
  Proof.
    destruct v; cbn; intros H; try (injection H as <-; eexists; split; [reflexivity|constructor; congruence]).
    - unfold timestamp_nanos in H. destruct (nanos d) as [z|] eqn:E; [|discriminate]. injection H as <-. eexists. split; [reflexivity|]. constructor. exact E.
    - injection H as <-. exists (ELifecycle _ _ _ l). split; [|constructor; congruence].
      destruct l as [s|b']; cbn; [destruct s|destruct b']; reflexivity.
  Qed.
  Lemma rval_ok b : (exists v, rval b = Ok v) <-> understood f32 f64 other b.
  Proof.
    unfold understood. split.
    - intros (v & H) x ->. discriminate.
    - intros H. destruct b; cbn; eauto. contradiction (H x eq_refl).
  Qed.
  Lemma rval_err b e : rval b = Err e -> e = AssertionErr.
  Proof. destruct b; cbn; try discriminate. intros [= <-]. reflexivity. Qed.
  Lemma string_ok b : (exists s, string_or_err f32 f64 other b = Ok s) <-> is_string f32 f64 other b.
  Proof. unfold is_string. split; [|intros (s & ->); exists s; reflexivity]. intros (s & H). destruct b; try discriminate. eauto. Qed.

  (** * Pairs *)
  Lemma wpair_ok kv : (exists b, wpair kv = Ok b) <-> fits (snd kv).
  Proof.
    rewrite <- wval_ok. unfold kv_pair_to_bxes_pair. split.
    - intros (b & H). destruct (wval (snd kv)); [eauto|discriminate].
    - intros (b & ->). cbn. eauto.
  Qed.
  Lemma wpair_err kv e : wpair kv = Err e -> e = AssertionErr.
  Proof. unfold kv_pair_to_bxes_pair. destruct (wval (snd kv)) eqn:E; cbn; [discriminate|]. intros [= <-]. eapply wval_err, E. Qed.
  Definition pair_turns (kv kv' : pystr * epv) : Prop := fst kv' = fst kv /\ turns (snd kv) (snd kv').
  Lemma rpair_wpair kv p : wpair kv = Ok p -> exists q, rpair p = Ok q /\ pair_turns kv q.
  Proof.
    unfold kv_pair_to_bxes_pair. destruct (wval (snd kv)) as [b|] eqn:E; cbn; [|discriminate]. intros [= <-].
    destruct (rval_wval _ _ E) as (w & R & T). exists (fst kv, w). split; [|split; [reflexivity|exact T]]. unfold read_pair. cbn. rewrite R. reflexivity.
  Qed.
  Lemma mapM_chain {A B C} (f : A -> result B) (g : B -> result C) (R : A -> C -> Prop) : forall l m,
    (forall x y, In x l -> f x = Ok y -> exists z, g y = Ok z /\ R x z) -> mapM f l = Ok m -> exists r, mapM g m = Ok r /\ Forall2 R l r.
  Proof.
    induction l as [|x l IH]; intros m H; cbn [mapM].
    - intros [= <-]. exists []. split; [reflexivity|constructor].
    - destruct (f x) as [y|] eqn:E; cbn; [|discriminate]. destruct (mapM f l) as [ys|] eqn:E2; cbn; [|discriminate]. intros [= <-].
      destruct (H x y (or_introl eq_refl) E) as (z & G & Rz). destruct (IH ys (fun x y Hx => H x y (or_intror Hx)) eq_refl) as (r & M & F).
      exists (z :: r). split; [|constructor; assumption]. cbn [mapM]. rewrite G. cbn. rewrite M. reflexivity.
  Qed.
  (** Pairs are read first, then put into the table. *)
  Definition put_all {V} (qs : list (pystr * V)) (m : dict pystr V) : dict pystr V := fold_left (fun m kv => dset str_eq_dec m (fst kv) (snd kv)) qs m.
  Lemma loop_put {A V} (f : A -> result (pystr * V)) l : forall m,
    loopM (fun m x => bind (f x) (fun kv => Ok (dset str_eq_dec m (fst kv) (snd kv)))) l m = bind (mapM f l) (fun qs => Ok (put_all qs m)).
  Proof.
    induction l as [|x l IH]; intros m; [reflexivity|]. rewrite loopM_cons. cbn [mapM]. destruct (f x) as [kv|e]; cbn; [|reflexivity].
    rewrite IH. destruct (mapM f l); reflexivity.
  Qed.
  Lemma rpairs_eq l : rpairs l = bind (mapM rpair l) (fun qs => Ok (put_all qs [])).
  Proof. unfold read_pairs. apply loop_put. Qed.
  Lemma put_all_get {V} (qs : list (pystr * V)) k : forall m, NoDup (map fst qs) ->
    dget str_eq_dec (put_all qs m) k = match dget str_eq_dec qs k with Some v => Some v | None => dget str_eq_dec m k end.
  Proof.
    induction qs as [|[k1 v1] qs IH]; intros m N; [reflexivity|]. cbn [map fst] in N. apply NoDup_cons_iff in N. destruct N as [N1 N].
    unfold put_all in *. cbn [fold_left fst snd]. rewrite IH by exact N. cbn [dget]. destruct (str_eq_dec k k1) as [<-|Hk].
    - replace (dget str_eq_dec qs k) with (@None V). 2:{ symmetry. apply dget_None. intros H. apply N1. exact H. }
      apply dget_dset_same.
    - destruct (dget str_eq_dec qs k); [reflexivity|]. apply dget_dset_other. congruence.
  Qed.
  (** Tables through a file, with some values left out. *)
  Lemma pairs_keys l r : Forall2 pair_turns l r -> map fst r = map fst l.
  Proof. induction 1 as [|x y l r [E _] F IH]; cbn; [reflexivity|]. rewrite E, IH. reflexivity. Qed.
  Lemma pairs_get l r : Forall2 pair_turns l r -> forall k,
    match dget str_eq_dec l k with None => dget str_eq_dec r k = None | Some v => exists w, turns v w /\ dget str_eq_dec r k = Some w end.
  Proof.
    induction 1 as [|[k1 v1] [k2 v2] l r [E T] F IH]; intros k; cbn [dget]; [reflexivity|]. cbn [fst snd] in E, T. subst k2.
    destruct (str_eq_dec k k1); [eauto|apply IH].
  Qed.
  Lemma sort_nodup {V} (m : dict pystr V) : NoDup (map fst m) -> NoDup (map fst (sort_by_first m)).
  Proof. intros N. eapply Permutation_NoDup; [|exact N]. apply Permutation_map, sort_perm. Qed.
  Lemma filter_nodup {V} (p : pystr * V -> bool) (m : dict pystr V) : NoDup (map fst m) -> NoDup (map fst (filter p m)).
  Proof.
    induction m as [|[k v] m IH]; cbn [map filter]; intros N; [exact N|]. apply NoDup_cons_iff in N. destruct N as [N1 N].
    destruct (p (k, v)); [|exact (IH N)]. cbn [map]. constructor; [|exact (IH N)]. intros H. apply N1. apply in_map_iff in H. destruct H as (x & E & H).
    apply filter_In in H. apply in_map_iff. exists x. split; [exact E|apply H].
  Qed.
  Lemma filter_get {V} (p : pystr * V -> bool) (m : dict pystr V) k : NoDup (map fst m) ->
    dget str_eq_dec (filter p m) k = match dget str_eq_dec m k with Some v => if p (k, v) then Some v else None | None => None end.
  Proof.
    induction m as [|[k1 v] m IH]; cbn [map filter dget]; intros N; [reflexivity|]. apply NoDup_cons_iff in N. destruct N as [N1 N].
    destruct (str_eq_dec k k1) as [<-|Hk].
    - destruct (p (k, v)); cbn [dget]; [destruct (str_eq_dec k k); [reflexivity|contradiction]|]. apply dget_None. intros H. apply N1.
      unfold dkeys in H. apply in_map_iff in H. destruct H as (x & E & H). apply filter_In in H. apply in_map_iff. exists x. split; [exact E|apply H].
    - destruct (p (k1, v)); cbn [dget]; [destruct (str_eq_dec k k1); [contradiction|]|]; apply IH, N.
  Qed.
  Lemma table_trip (p : pystr * epv -> bool) (out : pystr -> epv -> Prop) m ps :
    (forall k v, p (k, v) = true <-> ~ out k v) -> (forall k v, p (k, v) = false -> out k v) -> NoDup (map fst m) ->
    mapM wpair (filter p (sort_by_first m)) = Ok ps -> exists m', rpairs ps = Ok m' /\ table_turns out m m'.
  Proof.
    intros P1 P2 N W. destruct (mapM_chain _ rpair pair_turns _ _ (fun x y _ H => rpair_wpair x y H) W) as (r & R & F).
    exists (put_all r []). rewrite rpairs_eq, R. split; [reflexivity|]. intros k. unfold value_of.
    assert (N2 := filter_nodup p _ (sort_nodup m N)).
    rewrite put_all_get by (rewrite (pairs_keys _ _ F); exact N2). assert (G := pairs_get _ _ F k).
    rewrite filter_get in G by (apply sort_nodup, N). rewrite dget_sort in G. destruct (dget str_eq_dec m k) as [v|].
    - destruct (p (k, v)) eqn:E.
      + right. split; [apply P1, E|]. destruct G as (w & T & ->). eauto.
      + left. split; [apply P2, E|]. rewrite G. reflexivity.
    - rewrite G. reflexivity.
  Qed.
End Proofs.
