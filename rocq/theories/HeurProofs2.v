(** Proofs about the heuristic miner: the relations. *)
From Coq Require Import Permutation Sorted QArith.
From Verif Require Import Py PyFacts InfoModel InfoSpec InfoProofs HashModel EqProofs ReplayModel RInfoModel RInfoSpec RInfoProofs AlphaModel AlphaSpec AlphaProofs AlphaProofs2 PlusProofs HeurModel HeurSpec HeurProofs1.
Open Scope nat_scope.

Lemma Qlt_bool_iff a b : Qlt_bool a b = true <-> (a < b)%Q.
Proof.
  unfold Qlt_bool. rewrite negb_true_iff. split.
  - intros H. apply Qnot_le_lt. intros L. apply Qle_bool_iff in L. congruence.
  - intros H. destruct (Qle_bool b a) eqn:E; [|reflexivity]. apply Qle_bool_iff in E. exfalso. eapply Qlt_not_le; eauto.
Qed.
Lemma Qle_bool_no a b : Qle_bool a b = false <-> (b < a)%Q.
Proof. rewrite <- Qlt_bool_iff. unfold Qlt_bool. rewrite negb_true_iff. reflexivity. Qed.
Lemma class_of_In log c : class_of log c <-> In c (occurrences log None).
Proof.
  unfold occurrences, class_of. rewrite in_flat_map. split; intros (t & Ht & Hc); exists t; (split; [exact Ht|]).
  - unfold kept. apply filter_In. auto.
  - unfold kept in Hc. apply filter_In in Hc. apply Hc.
Qed.

(** ** The largest value *)
Lemma best_fold (r : list (pystr * Q)) : forall b, let m := fold_left (fun best v => if Qle_bool best (snd v) then snd v else best) r b in
  (m = b \/ In m (map snd r)) /\ (b <= m)%Q /\ forall v, In v r -> (snd v <= m)%Q.
Proof.
  induction r as [|v r IH]; intros b; cbn [fold_left map].
  - split; [auto|]. split; [apply Qle_refl|intros ? []].
  - specialize (IH (if Qle_bool b (snd v) then snd v else b)). cbn zeta in IH. destruct IH as (H1 & H2 & H3).
    set (m := fold_left _ r _) in *. destruct (Qle_bool b (snd v)) eqn:E.
    + apply Qle_bool_iff in E. split; [destruct H1 as [H1|H1]; right; [left; symmetry; exact H1|right; exact H1]|]. split; [eapply Qle_trans; eauto|]. intros u [<-|Hu]; [exact H2|apply H3, Hu].
    + apply Qle_bool_no in E. split; [destruct H1; [auto|right; right; assumption]|]. split; [exact H2|]. intros u [<-|Hu]; [|apply H3, Hu]. eapply Qle_trans; [apply Qlt_le_weak, E|exact H2].
Qed.
Lemma best_value_proof row best : best_value row = Some best -> In best (map snd row) /\ forall v, In v row -> (snd v <= best)%Q.
Proof.
  destruct row as [|v r]; [discriminate|]. cbn [best_value]. intros E. injection E as <-. destruct (best_fold r (snd v)) as (H1 & H2 & H3). split.
  - destruct H1 as [->|H1]; [left; reflexivity|right; exact H1].
  - intros u [<-|Hu]; [exact H2|apply H3, Hu].
Qed.

(** ** Tables made from lists *)
Lemma dset_all_mem (l : list (pystr * Q)) : forall d c, dmem str_eq_dec (fold_left (fun map v => dset str_eq_dec map (fst v) (snd v)) l d) c = true <-> dmem str_eq_dec d c = true \/ In c (map fst l).
Proof.
  induction l as [|v l IH]; intros d c; cbn [fold_left map]; [cbn [In]; tauto|]. rewrite IH. unfold dmem. destruct (str_eq_dec (fst v) c) as [<-|Hne].
  - rewrite dget_dset_same. cbn [In]. tauto.
  - rewrite dget_dset_other by congruence. cbn [In]. tauto.
Qed.

Section Relations.
  Variable ord : nat -> forall A : Type, list A -> list A.
  Hypothesis O : any_order ord.
  Variable log : list (list pystr).
  Variable p : hparams.
  Let info := r_create_from ord log false None.
  Lemma count_times a b : h_count info a b = times log a b.
  Proof. unfold h_count, times. apply (counts_proof ord O log false None). Qed.
  Lemma measure_dependency a b : dependency_measure info a b = dependency log a b.
  Proof. unfold dependency_measure, dependency. rewrite !count_times. destruct (str_eqb a b) eqn:E; [apply str_eqb_eq in E; subst b|]; reflexivity. Qed.
  Lemma and_together a b c : and_relation info p a b c = true <-> together log p a b c.
  Proof. unfold and_relation, together. rewrite Qlt_bool_iff, !count_times. reflexivity. Qed.
  Lemma and_sym a b c : and_relation info p a b c = and_relation info p a c b.
  Proof.
    apply Bool.eq_true_iff_eq. unfold and_relation. rewrite !Qlt_bool_iff.
    rewrite (Qplus_comm (qn (h_count info b c)) (qn (h_count info c b))), (Qplus_comm (qn (h_count info a b)) (qn (h_count info a c))). reflexivity.
  Qed.
  Variable classes : list pystr.
  Hypothesis Hcl : forall c, In c classes <-> class_of log c.
  Lemma row_In a b v : class_of log a -> In (b, v) (dependency_row info p classes a) <-> candidate log p a b /\ v = dependency log a b.
  Proof.
    intros Ha. unfold dependency_row, candidate. rewrite in_flat_map. split.
    - intros (c & Hc & H). rewrite count_times, measure_dependency in H. destruct (times log a c <? hp_positive p) eqn:E1; [destruct H|]. destruct (Qle_bool (dependency log a c) (hp_dependency p)) eqn:E2; [destruct H|].
      destruct H as [H|[]]. injection H as -> <-. apply Hcl in Hc. apply Nat.ltb_ge in E1. apply Qle_bool_no in E2. auto.
    - intros [(_ & Hb & H1 & H2) ->]. exists b. split; [apply Hcl, Hb|]. rewrite count_times, measure_dependency. apply Nat.ltb_ge in H1. rewrite H1. apply Qle_bool_no in H2. rewrite H2. left. reflexivity.
  Qed.
  Lemma kept_In a b : class_of log a -> In b (map fst (kept_row p (dependency_row info p classes a))) <-> depends log p a b.
  Proof.
    intros Ha. unfold kept_row, depends. pose proof (row_In a) as R. set (row := dependency_row info p classes a) in *. destruct (best_value row) as [best|] eqn:E.
    - apply best_value_proof in E. destruct E as [E1 E2]. apply in_map_iff in E1. destruct E1 as ([c v] & Ev & Hc). cbn [snd] in Ev. subst v. apply R in Hc; [|exact Ha]. destruct Hc as [Hc Ec].
      rewrite in_map_iff. split.
      + intros ([b' v] & <- & H). cbn [fst]. apply filter_In in H. destruct H as [H1 H2]. apply R in H1; [|exact Ha]. destruct H1 as [H1 ->]. split; [exact H1|]. exists c. split; [exact Hc|]. split.
        * intros d Hd. rewrite <- Ec. apply (E2 (d, dependency log a d)). apply R; auto.
        * rewrite <- Ec. cbn [snd] in H2. rewrite negb_true_iff in H2. apply Qnot_lt_le. intros L. apply Qlt_bool_iff in L. congruence.
      + intros [H1 (c' & H2 & H3 & H4)]. exists (b, dependency log a b). split; [reflexivity|]. apply filter_In. split; [apply R; auto|]. cbn [snd]. rewrite negb_true_iff.
        assert (Eq : (best == dependency log a c')%Q).
        { apply Qle_antisym; [rewrite Ec; apply H3, Hc|apply (E2 (c', dependency log a c')), R; auto]. }
        rewrite <- Eq in H4. destruct (Qlt_bool _ _) eqn:L; [|reflexivity]. apply Qlt_bool_iff in L. exfalso. eapply Qlt_not_le; eauto.
    - destruct row as [|v r] eqn:Er; [|discriminate]. cbn [map In]. split; [intros []|]. intros [H _]. assert (In (b, dependency log a b) []) by (apply R; auto). destruct H0.
  Qed.
  Lemma relations_fold l : forall rel a b, ~ dmem str_eq_dec rel a = true -> NoDup l -> (forall c, In c l -> class_of log c) ->
    dependency_relation (fold_left (fun relations first =>
      match dependency_row info p classes first with
      | [] => relations
      | row => dset str_eq_dec relations first (fold_left (fun map v => dset str_eq_dec map (fst v) (snd v)) (kept_row p row) [])
      end) l rel) a b = true <-> In a l /\ depends log p a b.
  Proof.
    assert (K : forall l rel a b, ~ In a l -> dependency_relation (fold_left (fun relations first =>
      match dependency_row info p classes first with
      | [] => relations
      | row => dset str_eq_dec relations first (fold_left (fun map v => dset str_eq_dec map (fst v) (snd v)) (kept_row p row) [])
      end) l rel) a b = dependency_relation rel a b).
    { clear l. induction l as [|c l IH]; intros rel a b H; cbn [fold_left]; [reflexivity|]. rewrite IH by (intros X; apply H; right; exact X). destruct (dependency_row info p classes c); [reflexivity|].
      unfold dependency_relation. rewrite dget_dset_other; [reflexivity|]. intros ->. apply H. left. reflexivity. }
    induction l as [|c l IH]; intros rel a b Hr ND Hl; cbn [fold_left].
    - unfold dependency_relation. unfold dmem in Hr. destruct (dget str_eq_dec rel a); [exfalso; apply Hr; reflexivity|]. split; [discriminate|intros [[] _]].
    - inversion ND as [|? ? Hn ND']; subst. destruct (str_eq_dec c a) as [->|Hne].
      + rewrite K by exact Hn. pose proof (kept_In a b (Hl a (or_introl eq_refl))) as KI. destruct (dependency_row info p classes a) as [|v r] eqn:Er.
        * unfold dependency_relation. unfold dmem in Hr. destruct (dget str_eq_dec rel a); [exfalso; apply Hr; reflexivity|]. split; [discriminate|]. intros [_ H]. apply KI in H. destruct H.
        * unfold dependency_relation. rewrite dget_dset_same, dset_all_mem, KI. unfold dmem. cbn [dget]. split; [intros [|H]; [discriminate|split; [left; reflexivity|exact H]]|intros [_ H]; auto].
      + rewrite IH; [|..|exact ND'|intros d Hd; apply Hl; right; exact Hd].
        * cbn [In]. intuition congruence.
        * destruct (dependency_row info p classes c); [exact Hr|]. unfold dmem. rewrite dget_dset_other by congruence. exact Hr.
  Qed.
  Lemma relations_proof classes0 a b : NoDup classes0 -> (forall c, In c classes0 <-> class_of log c) ->
    dependency_relation (dependency_relations info p classes0 classes) a b = true <-> depends log p a b.
  Proof.
    intros ND H0. unfold dependency_relations. rewrite relations_fold; [|intros X; discriminate|exact ND|intros c Hc; apply H0, Hc]. split; [intros [_ H]; exact H|]. intros H. split; [apply H0, H|exact H].
  Qed.
End Relations.

(** ** Names which alternate *)
Lemma sandwich_step x y z r a b : sandwich (x :: y :: z :: r) a b = (if str_eqb x a && str_eqb y b && str_eqb z a then 1 else 0) + sandwich (y :: z :: r) a b.
Proof. reflexivity. Qed.
Lemma triangles_step t : forall n found, n <= length t - 2 ->
  forall a b, count_occ pair_eq_dec (fold_left (fun found i =>
               match nth_error t i, nth_error t (i + 1), nth_error t (i + 2) with
               | Some a, Some b, Some c => if str_eqb a c then found ++ [(a, b)] else found
               | _, _, _ => found
               end) (seq (length t - 2 - n) n) found) (a, b) = count_occ pair_eq_dec found (a, b) + sandwich (skipn (length t - 2 - n) t) a b.
Proof.
  induction n as [|n IH]; intros found Hn a b.
  - cbn [seq fold_left]. rewrite Nat.sub_0_r.
    assert (E : sandwich (skipn (length t - 2) t) a b = 0); [|lia].
    assert (L : length (skipn (length t - 2) t) <= 2) by (rewrite skipn_length; lia). destruct (skipn (length t - 2) t) as [|x [|y [|z r]]]; try reflexivity. cbn [length] in L. lia.
  - cbn [seq fold_left]. replace (S (length t - 2 - S n)) with (length t - 2 - n) by lia. rewrite IH by lia.
    set (i := length t - 2 - S n). replace (length t - 2 - n) with (S i) by lia. assert (Li : i + 2 < length t) by lia.
    assert (Es : skipn i t = nth i t [] :: skipn (S i) t /\ skipn (S i) t = nth (i + 1) t [] :: skipn (S (S i)) t /\ skipn (S (S i)) t = nth (i + 2) t [] :: skipn (S (S (S i))) t).
    { assert (K : forall j, j < length t -> skipn j t = nth j t [] :: skipn (S j) t).
      { clear. induction t as [|x t IH]; intros j Hj; [cbn in Hj; lia|]. destruct j as [|j]; [reflexivity|]. cbn [length] in Hj. change (skipn (S j) (x :: t)) with (skipn j t). rewrite IH by lia. reflexivity. }
      split; [apply K; lia|]. split; [rewrite K by lia|rewrite K by lia]; do 2 f_equal; lia. }
    destruct Es as (E1 & E2 & E3). rewrite E1. rewrite E2. rewrite E3. rewrite (sandwich_step (nth i t [])).
    rewrite (nth_error_nth' t [] (n := i)), (nth_error_nth' t [] (n := i + 1)), (nth_error_nth' t [] (n := i + 2)) by lia.
    set (x := nth i t []). set (y := nth (i + 1) t []). set (z := nth (i + 2) t []).
    destruct (str_eqb x z) eqn:Ez.
    + apply str_eqb_eq in Ez. rewrite <- Ez. rewrite count_occ_app. cbn [count_occ]. destruct (pair_eq_dec (x, y) (a, b)) as [Eq|Eq].
      * injection Eq as -> ->. rewrite !str_eqb_refl. cbn [andb]. lia.
      * assert (Ef : str_eqb x a && str_eqb y b && str_eqb x a = false); [|rewrite Ef; lia].
        destruct (str_eqb x a) eqn:F1; [|reflexivity]. destruct (str_eqb y b) eqn:F2; [|reflexivity]. apply str_eqb_eq in F1, F2. congruence.
    + assert (Ef : str_eqb x a && str_eqb y b && str_eqb z a = false); [|rewrite Ef; lia].
      destruct (str_eqb x a) eqn:F1; [|reflexivity]. destruct (str_eqb y b); [|reflexivity]. destruct (str_eqb z a) eqn:F2; [|reflexivity]. apply str_eqb_eq in F1, F2. exfalso. rewrite F1, F2, str_eqb_refl in Ez. discriminate.
Qed.
Lemma triangles_counts log : forall found, (forall t, In t log -> 2 <= length t) ->
  exists r, loopM triangles_trace log found = Ok r /\ forall a b, count_occ pair_eq_dec r (a, b) = count_occ pair_eq_dec found (a, b) + sandwiches log a b.
Proof.
  induction log as [|t log IH]; intros found H.
  - exists found. split; [reflexivity|]. intros a b. unfold sandwiches. cbn. lia.
  - rewrite loopM_cons.
    assert (E : exists f, triangles_trace found t = Ok f /\ forall a b, count_occ pair_eq_dec f (a, b) = count_occ pair_eq_dec found (a, b) + sandwich t a b).
    { assert (L : 2 <= length t) by (apply H; left; reflexivity). pose proof (triangles_step t (length t - 2) found (le_n _)) as S. rewrite Nat.sub_diag in S. cbn [skipn] in S.
      destruct t as [|x [|y t]]; cbn [length] in L; try lia. eexists. split; [reflexivity|]. exact S. }
    destruct E as (f & -> & Ef). cbn [bind]. destruct (IH f) as (r & Hr & Er); [intros u Hu; apply H; right; exact Hu|]. exists r. split; [exact Hr|]. intros a b. rewrite Er, Ef. unfold sandwiches. cbn [map list_sum fold_right]. unfold list_sum. lia.
Qed.
Lemma loop_alternate p log triangles a b : (forall a b, count_occ pair_eq_dec triangles (a, b) = sandwiches log a b) -> loop_relation p triangles a b = true <-> alternate log p a b.
Proof. intros H. unfold loop_relation, alternate. rewrite Qlt_bool_iff, !H. reflexivity. Qed.
