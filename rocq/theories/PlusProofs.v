(** Proofs about the alpha+ algorithm: loops, triangles and the transitions added for loops. *)
From Coq Require Import Permutation Sorted.
From Verif Require Import Py PyFacts InfoModel InfoSpec InfoProofs HashModel EqProofs ReplayModel ReplaySpec ReplayProofs HMutProofs RInfoModel RInfoSpec RInfoProofs AlphaModel AlphaSpec AlphaProofs AlphaProofs2 AlphaProofs3 AlphaProofs4 AlphaProofs5 AlphaProofs6 PlusSpec.

(** ** Loops and triangles *)
Lemma at_pair {A} (t : list A) a b : (exists i, nth_error t i = Some a /\ nth_error t (i + 1) = Some b) <-> exists l1 l2, t = l1 ++ a :: b :: l2.
Proof.
  split.
  - intros (i & H1 & H2). destruct (nth_error_split _ _ H1) as (l1 & l2 & -> & <-). rewrite nth_error_app2 in H2 by lia. replace (length l1 + 1 - length l1) with 1 in H2 by lia.
    destruct l2 as [|b' l2]; [discriminate|]. cbn in H2. injection H2 as ->. eauto.
  - intros (l1 & l2 & ->). exists (length l1). rewrite !nth_error_app2 by lia. replace (length l1 - length l1) with 0 by lia. replace (length l1 + 1 - length l1) with 1 by lia. auto.
Qed.
Lemma at_triple {A} (t : list A) a b c : (exists i, nth_error t i = Some a /\ nth_error t (i + 1) = Some b /\ nth_error t (i + 2) = Some c) <-> exists l1 l2, t = l1 ++ a :: b :: c :: l2.
Proof.
  split.
  - intros (i & H1 & H2 & H3). destruct (nth_error_split _ _ H1) as (l1 & l2 & -> & <-). rewrite nth_error_app2 in H2, H3 by lia.
    replace (length l1 + 1 - length l1) with 1 in H2 by lia. replace (length l1 + 2 - length l1) with 2 in H3 by lia.
    destruct l2 as [|b' [|c' l2]]; try discriminate. cbn in H2, H3. injection H2 as ->. injection H3 as ->. eauto.
  - intros (l1 & l2 & ->). exists (length l1). rewrite !nth_error_app2 by lia. replace (length l1 - length l1) with 0 by lia. replace (length l1 + 1 - length l1) with 1 by lia. replace (length l1 + 2 - length l1) with 2 by lia. auto.
Qed.
Lemma loops_fold t is found c :
  In c (fold_left (fun found i => match nth_error t i, nth_error t (i + 1) with Some a, Some b => if str_eqb a b then set_add found a else found | _, _ => found end) is found) <->
  In c found \/ exists i, In i is /\ nth_error t i = Some c /\ nth_error t (i + 1) = Some c.
Proof.
  revert found. induction is as [|i is IH]; intros found; cbn [fold_left]; [split; [auto|intros [H|(i & [] & _)]; exact H]|]. rewrite IH. split.
  - intros [H|(j & Hj & H)]; [|right; exists j; split; [right; exact Hj|exact H]].
    destruct (nth_error t i) as [a|] eqn:Ea; [|auto]. destruct (nth_error t (i + 1)) as [b|] eqn:Eb; [|auto]. destruct (str_eqb a b) eqn:E; [|auto]. apply str_eqb_eq in E. subst b.
    apply set_add_In in H. destruct H as [->|H]; [|auto]. right. exists i. split; [left; reflexivity|auto].
  - intros [H|(j & [<-|Hj] & H1 & H2)].
    + left. destruct (nth_error t i) as [a|]; [|exact H]. destruct (nth_error t (i + 1)) as [b|]; [|exact H]. destruct (str_eqb a b); [|exact H]. apply set_add_In. auto.
    + left. rewrite H1, H2, str_eqb_refl. apply set_add_In. auto.
    + right. exists j. auto.
Qed.
Lemma loops_fold_NoDup t is found : NoDup found ->
  NoDup (fold_left (fun found i => match nth_error t i, nth_error t (i + 1) with Some a, Some b => if str_eqb a b then set_add found a else found | _, _ => found end) is found).
Proof.
  revert found. induction is as [|i is IH]; intros found H; cbn [fold_left]; [exact H|]. apply IH.
  destruct (nth_error t i) as [a|]; [|exact H]. destruct (nth_error t (i + 1)) as [b|]; [|exact H]. destruct (str_eqb a b); [apply set_add_NoDup, H|exact H].
Qed.
Lemma loops_proof log : forall found, NoDup found -> (forall t, In t log -> t <> []) ->
  exists r, loopM one_length_loops_trace log found = Ok r /\ NoDup r /\ forall c, In c r <-> In c found \/ one_loop log c.
Proof.
  induction log as [|t log IH]; intros found ND K.
  - exists found. split; [reflexivity|]. split; [exact ND|]. intros c. split; [auto|]. intros [H|(l1 & l2 & [])]. exact H.
  - rewrite loopM_cons.
    assert (E : one_length_loops_trace found t = Ok (fold_left (fun found i =>
               match nth_error t i, nth_error t (i + 1) with
               | Some a, Some b => if str_eqb a b then set_add found a else found
               | _, _ => found
               end) (seq 0 (length t - 1)) found)).
    { unfold one_length_loops_trace. destruct t; [exfalso; apply (K [] (or_introl eq_refl) eq_refl)|reflexivity]. }
    rewrite E. cbn [bind].
    destruct (IH _ (loops_fold_NoDup t (seq 0 (length t - 1)) found ND)) as (r & Er & NDr & Hr); [intros u Hu; apply K; right; exact Hu|].
    exists r. split; [exact Er|]. split; [exact NDr|]. intros c. rewrite Hr, loops_fold. unfold one_loop, next_to. split.
    + intros [[H|(i & Hi & H)]|(l1 & l2 & H)]; [auto| |right; exists l1, l2; right; exact H].
      right. destruct (proj1 (at_pair t c c) (ex_intro _ i H)) as (l1 & l2 & ->). exists l1, l2. left. reflexivity.
    + intros [H|(l1 & l2 & [H|H])]; [auto| |right; eauto]. left. right. destruct (proj2 (at_pair t c c) (ex_intro _ l1 (ex_intro _ l2 H))) as (i & H1 & H2). exists i. split; [|auto].
      apply in_seq. assert (L : i + 1 < length t) by (apply nth_error_Some; congruence). lia.
Qed.
Lemma loops_panic log : (exists t, In t log /\ t = []) -> forall found, loopM one_length_loops_trace log found = rpanic.
Proof.
  intros (t & Ht & ->). induction log as [|u log IH]; [destruct Ht|]. intros found. rewrite loopM_cons. destruct u as [|x u]; [reflexivity|].
  destruct Ht as [Ht|Ht]; [discriminate|]. cbn [one_length_loops_trace bind]. apply IH, Ht.
Qed.
Lemma triangles_fold t is found a b :
  In (a, b) (fold_left (fun found i => match nth_error t i, nth_error t (i + 1), nth_error t (i + 2) with Some a, Some b, Some c => if str_eqb a c then found ++ [(a, b)] else found | _, _, _ => found end) is found) <->
  In (a, b) found \/ exists i, In i is /\ nth_error t i = Some a /\ nth_error t (i + 1) = Some b /\ nth_error t (i + 2) = Some a.
Proof.
  revert found. induction is as [|i is IH]; intros found; cbn [fold_left]; [split; [auto|intros [H|(i & [] & _)]; exact H]|]. rewrite IH. split.
  - intros [H|(j & Hj & H)]; [|right; exists j; split; [right; exact Hj|exact H]].
    destruct (nth_error t i) as [x|] eqn:Ea; [|auto]. destruct (nth_error t (i + 1)) as [y|] eqn:Eb; [|auto]. destruct (nth_error t (i + 2)) as [z|] eqn:Ec; [|auto]. destruct (str_eqb x z) eqn:E; [|auto]. apply str_eqb_eq in E. subst z.
    apply in_app_iff in H. destruct H as [H|[H|[]]]; [auto|]. injection H as -> ->. right. exists i. split; [left; reflexivity|auto].
  - intros [H|(j & [<-|Hj] & H1 & H2 & H3)].
    + left. destruct (nth_error t i) as [x|]; [|exact H]. destruct (nth_error t (i + 1)) as [y|]; [|exact H]. destruct (nth_error t (i + 2)) as [z|]; [|exact H]. destruct (str_eqb x z); [|exact H]. apply in_app_iff. auto.
    + left. rewrite H1, H2, H3, str_eqb_refl. apply in_app_iff. right. left. reflexivity.
    + right. exists j. auto.
Qed.
Lemma triangles_proof log : forall found, (forall t, In t log -> 2 <= length t) ->
  exists r, loopM triangles_trace log found = Ok r /\ forall a b, In (a, b) r <-> In (a, b) found \/ triangle log a b.
Proof.
  induction log as [|t log IH]; intros found K.
  - exists found. split; [reflexivity|]. intros a b. split; [auto|]. intros [H|(l1 & l2 & [])]. exact H.
  - rewrite loopM_cons.
    assert (E : triangles_trace found t = Ok (fold_left (fun found i =>
               match nth_error t i, nth_error t (i + 1), nth_error t (i + 2) with
               | Some a, Some b, Some c => if str_eqb a c then found ++ [(a, b)] else found
               | _, _, _ => found
               end) (seq 0 (length t - 2)) found)).
    { unfold triangles_trace. pose proof (K t (or_introl eq_refl)) as L. destruct t as [|x [|y t]]; cbn [length] in L; try lia. reflexivity. }
    rewrite E. cbn [bind].
    destruct (IH (fold_left (fun found i =>
               match nth_error t i, nth_error t (i + 1), nth_error t (i + 2) with
               | Some a, Some b, Some c => if str_eqb a c then found ++ [(a, b)] else found
               | _, _, _ => found
               end) (seq 0 (length t - 2)) found)) as (r & Er & Hr); [intros u Hu; apply K; right; exact Hu|].
    exists r. split; [exact Er|]. intros a b. rewrite Hr, triangles_fold. unfold triangle. split.
    + intros [[H|(i & Hi & H)]|(l1 & l2 & H)]; [auto| |right; exists l1, l2; right; exact H].
      right. destruct (proj1 (at_triple t a b a) (ex_intro _ i H)) as (l1 & l2 & ->). exists l1, l2. left. reflexivity.
    + intros [H|(l1 & l2 & [H|H])]; [auto| |right; eauto]. left. right. destruct (proj2 (at_triple t a b a) (ex_intro _ l1 (ex_intro _ l2 H))) as (i & H1 & H2 & H3). exists i. split; [|auto].
      apply in_seq. assert (L : i + 2 < length t) by (apply nth_error_Some; congruence). lia.
Qed.
Lemma triangles_panic log : (exists t, In t log /\ length t < 2) -> forall found, loopM triangles_trace log found = rpanic.
Proof.
  intros (t & Ht & L). induction log as [|u log IH]; [destruct Ht|]. intros found. rewrite loopM_cons. destruct u as [|x [|y u]]; [reflexivity|reflexivity|].
  destruct Ht as [<-|Ht]; [cbn [length] in L; lia|]. cbn [triangles_trace bind]. apply IH, Ht.
Qed.

(** ** What is around a class *)
Lemma insert_rights_proof l : forall x, as_left (fold_left insert_right_class l x) = as_left x /\ as_right (fold_left insert_right_class l x) = fold_left (fun s c => bset_insert c s) l (as_right x).
Proof. induction l as [|c l IH]; intros x; cbn [fold_left]; [auto|]. apply (IH (insert_right_class x c)). Qed.
Lemma insert_lefts_proof l : forall x, as_right (fold_left insert_left_class l x) = as_right x /\ as_left (fold_left insert_left_class l x) = fold_left (fun s c => bset_insert c s) l (as_left x).
Proof. induction l as [|c l IH]; intros x; cbn [fold_left]; [auto|]. apply (IH (insert_left_class x c)). Qed.
Lemma dget_keys_iff {V} (m : dict pystr V) b : In b (dkeys m) <-> dget str_eq_dec m b <> None.
Proof.
  rewrite <- dmem_In with (eqd := str_eq_dec). unfold dmem. destruct (dget str_eq_dec m b); split; congruence.
Qed.
Lemma positive_none l x : positive (count_occ pair_eq_dec l x) <> None <-> In x l.
Proof.
  unfold positive. rewrite (count_occ_In pair_eq_dec). destruct (count_occ pair_eq_dec l x) eqn:E; cbn [Nat.eqb]; split; intros H; [congruence|lia|lia|discriminate].
Qed.
Lemma neighbours_set_proof ord : any_order ord -> forall log c, around log c (neighbours_set ord (r_create_from ord log false None) c).
Proof.
  intros O log c. destruct (followers_proof ord O log false None) as (F1 & F2 & _). set (info := r_create_from ord log false None) in *.
  assert (Kx : forall b, (match r_followed (ri_dfg info) c with Some m => In b (dkeys (ord 22 _ m)) | None => False end) <-> next_to log c b).
  { intros b. specialize (F1 c b). unfold next_to. rewrite <- follows_split. unfold follows. rewrite <- positive_none. rewrite <- F1. destruct (r_followed (ri_dfg info) c) as [m|]; [|split; [intros []|congruence]].
    rewrite <- dget_keys_iff. unfold dkeys. split; intros H; [eapply Permutation_in; [apply Permutation_map, O|exact H]|eapply Permutation_in; [apply Permutation_map, Permutation_sym, O|exact H]]. }
  assert (Ky : forall a, (match r_precedes (ri_dfg info) c with Some m => In a (dkeys (ord 23 _ m)) | None => False end) <-> next_to log a c).
  { intros a. specialize (F2 a c). unfold next_to. rewrite <- follows_split. unfold follows. rewrite <- positive_none. rewrite <- F2. destruct (r_precedes (ri_dfg info) c) as [m|]; [|split; [intros []|congruence]].
    rewrite <- dget_keys_iff. unfold dkeys. split; intros H; [eapply Permutation_in; [apply Permutation_map, O|exact H]|eapply Permutation_in; [apply Permutation_map, Permutation_sym, O|exact H]]. }
  assert (Fl : forall l b, In b (filter (fun e => negb (str_eqb e c)) l) <-> b <> c /\ In b l).
  { intros l b. rewrite filter_In, negb_true_iff. destruct (str_eqb b c) eqn:E; [apply str_eqb_eq in E; intuition congruence|]. split; [intros [H _]; split; [|exact H]; intros ->; rewrite str_eqb_refl in E; discriminate|intros [_ H]; auto]. }
  unfold neighbours_set. set (x := match r_followed (ri_dfg info) c with Some m => _ | None => as_empty end).
  assert (Hx : as_left x = [] /\ bsorted (as_right x) /\ forall b, In b (as_right x) <-> b <> c /\ next_to log c b).
  { unfold x. destruct (r_followed (ri_dfg info) c) as [m|].
    - destruct (insert_rights_proof (filter (fun e => negb (str_eqb e c)) (dkeys (ord 22 _ m))) as_empty) as [A B]. rewrite A, B. cbn [as_empty as_left as_right]. split; [reflexivity|].
      split; [apply bset_fold_sorted; constructor|]. intros b. rewrite bset_fold_In, Fl, Kx. cbn [In]. tauto.
    - cbn. split; [reflexivity|]. split; [constructor|]. intros b. rewrite <- Kx. tauto. }
  destruct Hx as (X1 & X2 & X3). split.
  - intros s. destruct (r_precedes (ri_dfg info) c) as [m|]; [|destruct s; cbn [sd]; [rewrite X1; constructor|exact X2]].
    destruct (insert_lefts_proof (filter (fun e => negb (str_eqb e c)) (dkeys (ord 23 _ m))) x) as [A B]. destruct s; cbn [sd]; [rewrite B, X1; apply bset_fold_sorted; constructor|rewrite A; exact X2].
  - split.
    + intros a. specialize (Ky a). destruct (r_precedes (ri_dfg info) c) as [m|]; [|rewrite X1; cbn [In]; tauto].
      destruct (insert_lefts_proof (filter (fun e => negb (str_eqb e c)) (dkeys (ord 23 _ m))) x) as [A B]. rewrite B, X1, bset_fold_In, Fl, Ky. cbn [In]. tauto.
    + intros b. rewrite <- X3. destruct (r_precedes (ri_dfg info) c) as [m|]; [|reflexivity].
      destruct (insert_lefts_proof (filter (fun e => negb (str_eqb e c)) (dkeys (ord 23 _ m))) x) as [A B]. rewrite A. reflexivity.
Qed.

(** ** The transitions for loops *)
Definition fresh_net (net : pnet) (next : N) : Prop := NoDup (all_ids net) /\ forall i, In i (all_ids net) -> (i < next)%N.
Lemma find_place_proof ord net name : any_order ord ->
  match find_place_id_by_name ord net name with
  | Some pl => In (pl, name) (n_places net)
  | None => ~ In name (map snd (n_places net))
  end.
Proof.
  intros O. unfold find_place_id_by_name. destruct (find _ _) as [[pl n]|] eqn:E.
  - apply find_some in E. destruct E as [H1 H2]. cbn [snd] in H2. apply str_eqb_eq in H2. subst n. cbn [fst]. apply (ord_In ord O) in H1. exact H1.
  - intros H. apply in_map_iff in H. destruct H as ([pl n] & En & H). cbn [snd] in En. subst n. apply (ord_In ord O 21) in H. pose proof (find_none _ _ E _ H) as X. cbn [snd] in X. rewrite str_eqb_refl in X. discriminate.
Qed.
Lemma connect_last out P trans T i f next pl : (forall t, In t trans -> tr_id t <> tr_id T) ->
  conn out (mkNet P (trans ++ [T]) i f, next) (tr_id T) pl = Ok (mkNet P (trans ++ [if out then add_out pl next T else add_in pl next T]) i f, N.succ next).
Proof.
  intros H. assert (X : exists u, net_transition (mkNet P (trans ++ [T]) i f) (tr_id T) = Ok u).
  { apply net_transition_In. cbn [n_trans]. rewrite map_app, in_app_iff. right. left. reflexivity. }
  destruct X as (u & Eu).
  assert (M : forall g, map (fun t => if N.eqb (tr_id t) (tr_id T) then g t else t) (trans ++ [T]) = trans ++ [g T]).
  { intros g. rewrite map_app. cbn [map]. rewrite N.eqb_refl. f_equal. clear - H. induction trans as [|t l IH]; [reflexivity|]. cbn [map]. rewrite IH by (intros v Hv; apply H; right; exact Hv). f_equal.
    pose proof (H t (or_introl eq_refl)) as E. apply N.eqb_neq in E. rewrite E. reflexivity. }
  unfold conn, connect_transition_to_place, connect_place_to_transition, update_transition. cbn [fst snd]. destruct out; rewrite Eu; cbn [bind n_places n_trans n_initial n_final]; rewrite M; reflexivity.
Qed.
Lemma add_loop_proof ord info net next name : any_order ord -> fresh_net net next ->
  exists P pl a b next', add_one_length_loop ord info (net, next) name =
    Ok (mkNet P (n_trans net ++ [mkTrans next name false [mkArc b pl] [mkArc a pl]]) (n_initial net) (n_final net), next') /\
    fresh_net (mkNet P (n_trans net ++ [mkTrans next name false [mkArc b pl] [mkArc a pl]]) (n_initial net) (n_final net)) next' /\
    ((In (pl, as_string (neighbours_set ord info name)) (n_places net) /\ P = n_places net) \/
     (~ In (as_string (neighbours_set ord info name)) (map snd (n_places net)) /\ P = n_places net ++ [(pl, as_string (neighbours_set ord info name))])).
Proof.
  intros O [F1 F2]. unfold add_one_length_loop. set (x := neighbours_set ord info name). cbn [add_transition fst]. cbv zeta.
  set (n1 := mkNet (n_places net) (n_trans net ++ [mkTrans next name false [] []]) (n_initial net) (n_final net)).
  assert (Hid : forall t, In t (n_trans net) -> tr_id t <> next).
  { intros t Ht E. assert (X : In (tr_id t) (all_ids net)) by (unfold all_ids; apply in_app_iff; left; apply in_map, Ht). apply F2 in X. lia. }
  assert (Pm : forall P' T i f, Permutation (all_ids (mkNet P' (n_trans net ++ [T]) i f)) ((tr_id T :: arcs_of T) ++ map tr_id (n_trans net) ++ dkeys P' ++ flat_map arcs_of (n_trans net))).
  { intros P' T i f. unfold all_ids. cbn [n_trans n_places]. rewrite map_app, flat_map_app. cbn [map flat_map]. rewrite app_nil_r, <- app_assoc. cbn [app]. eapply perm_trans; [symmetry; apply Permutation_middle|]. apply perm_skip.
    eapply perm_trans; [|apply Permutation_app_comm]. rewrite <- !app_assoc. reflexivity. }
  pose proof (find_place_proof ord n1 (as_string x) O) as Hf. destruct (find_place_id_by_name ord n1 (as_string x)) as [pl|].
  - pose proof (connect_last true (n_places net) (n_trans net) (mkTrans next name false [] []) (n_initial net) (n_final net) (N.succ next) pl Hid) as E1. unfold conn, add_out in E1; cbn [tr_id tr_name tr_silent tr_in tr_out app] in E1. unfold n1. rewrite E1. cbn [bind].
    pose proof (connect_last false (n_places net) (n_trans net) (mkTrans next name false [] [mkArc (N.succ next) pl]) (n_initial net) (n_final net) (N.succ (N.succ next)) pl Hid) as E2. unfold conn, add_in in E2; cbn [tr_id tr_name tr_silent tr_in tr_out app] in E2. rewrite E2.
    eexists _, pl, _, _, _. split; [reflexivity|]. split; [|left; split; [exact Hf|reflexivity]].
    split.
    + apply (Permutation_NoDup (Permutation_sym (Pm _ _ _ _))). cbn [tr_id arcs_of tr_in tr_out map arc_id app]. fold (all_ids net).
      assert (G : forall j, (next <= j)%N -> ~ In j (all_ids net)) by (intros j Hj X; apply F2 in X; lia).
      constructor; [|constructor; [|constructor; [apply G; lia|exact F1]]]; cbn [In]; intros X; repeat (destruct X as [X|X]; [lia|]); revert X; apply G; lia.
    + intros j Hj. apply (Permutation_in _ (Pm _ _ _ _)) in Hj. cbn [tr_id arcs_of tr_in tr_out map arc_id app In] in Hj. fold (all_ids net) in Hj.
      repeat (destruct Hj as [Hj|Hj]; [lia|]). apply F2 in Hj. lia.
  - cbn [add_place].
    assert (Ed : dset N.eq_dec (n_places n1) (N.succ next) (as_string x) = n_places net ++ [(N.succ next, as_string x)]).
    { apply dsetN_fresh. intros X. assert (Y : In (N.succ next) (all_ids net)) by (unfold all_ids; rewrite !in_app_iff; auto). apply F2 in Y. lia. }
    rewrite Ed. unfold n1. cbn [n_trans n_initial n_final].
    pose proof (connect_last true (n_places net ++ [(N.succ next, as_string x)]) (n_trans net) (mkTrans next name false [] []) (n_initial net) (n_final net) (N.succ (N.succ next)) (N.succ next) Hid) as E1. unfold conn, add_out in E1; cbn [tr_id tr_name tr_silent tr_in tr_out app] in E1. rewrite E1. cbn [bind].
    pose proof (connect_last false (n_places net ++ [(N.succ next, as_string x)]) (n_trans net) (mkTrans next name false [] [mkArc (N.succ (N.succ next)) (N.succ next)]) (n_initial net) (n_final net) (N.succ (N.succ (N.succ next))) (N.succ next) Hid) as E2. unfold conn, add_in in E2; cbn [tr_id tr_name tr_silent tr_in tr_out app] in E2. rewrite E2.
    eexists _, (N.succ next), _, _, _. split; [reflexivity|]. split; [|right; split; [exact Hf|reflexivity]].
    assert (Pm2 : forall T i f, Permutation (all_ids (mkNet (n_places net ++ [(N.succ next, as_string x)]) (n_trans net ++ [T]) i f)) ((tr_id T :: arcs_of T) ++ N.succ next :: all_ids net)).
    { intros T i f. eapply perm_trans; [apply Pm|]. apply Permutation_app_head. unfold all_ids, dkeys. rewrite map_app. cbn [map fst]. eapply perm_trans; [apply Permutation_app_head|symmetry; apply Permutation_middle].
      rewrite <- app_assoc. cbn [app]. symmetry. apply Permutation_middle. }
    split.
    + apply (Permutation_NoDup (Permutation_sym (Pm2 _ _ _))). cbn [tr_id arcs_of tr_in tr_out map arc_id app].
      assert (G : forall j, (next <= j)%N -> ~ In j (all_ids net)) by (intros j Hj X; apply F2 in X; lia).
      constructor; [|constructor; [|constructor; [|constructor; [apply G; lia|exact F1]]]]; cbn [In]; intros X; repeat (destruct X as [X|X]; [lia|]); revert X; apply G; lia.
    + intros j Hj. apply (Permutation_in _ (Pm2 _ _ _)) in Hj. cbn [tr_id arcs_of tr_in tr_out map arc_id app In] in Hj.
      repeat (destruct Hj as [Hj|Hj]; [lia|]). apply F2 in Hj. lia.
Qed.
Lemma add_loops_proof ord log base l : any_order ord -> let info := r_create_from ord log false None in
  forall net next more new, fresh_net net next ->
  n_trans net = n_trans base ++ more -> n_places net = n_places base ++ new -> NoDup (map snd new) ->
  (forall name, In name (map snd new) -> ~ In name (map snd (n_places base))) ->
  exists net' next' more' new', loopM (add_one_length_loop ord info) l (net, next) = Ok (net', next') /\ fresh_net net' next' /\
    n_initial net' = n_initial net /\ n_final net' = n_final net /\
    n_trans net' = n_trans base ++ more ++ more' /\ n_places net' = n_places base ++ new ++ new' /\ NoDup (map snd (new ++ new')) /\
    (forall name, In name (map snd (new ++ new')) -> ~ In name (map snd (n_places base))) /\
    (forall name, In name (map snd new') -> exists c, In c l /\ name = as_string (neighbours_set ord info c)) /\
    map tr_name more' = l /\
    forall t, In t more' -> tr_silent t = false /\ exists place,
      map arc_place (tr_in t) = [place] /\ map arc_place (tr_out t) = [place] /\ In (place, as_string (neighbours_set ord info (tr_name t))) (n_places net').
Proof.
  intros O info. induction l as [|c l IH]; intros net next more new F Et Ep ND Hn.
  - exists net, next, [], []. rewrite !app_nil_r. split; [reflexivity|]. split; [exact F|]. repeat (split; [first [reflexivity|assumption]|]). split; [intros name []|]. split; [reflexivity|]. intros t [].
  - rewrite loopM_cons. destruct (add_loop_proof ord info net next c O F) as (P & pl & a & b & x1 & E1 & F1 & HP). rewrite E1. cbn [bind].
    set (T := mkTrans next c false [mkArc b pl] [mkArc a pl]) in *. set (x := neighbours_set ord info c) in *.
    assert (HN : exists new1, P = n_places base ++ new ++ new1 /\ In (pl, as_string x) P /\ NoDup (map snd (new ++ new1)) /\ (forall name, In name (map snd (new ++ new1)) -> ~ In name (map snd (n_places base))) /\ (forall name, In name (map snd new1) -> name = as_string x)).
    { destruct HP as [[H ->]|[H ->]].
      - exists []. rewrite app_nil_r. split; [exact Ep|]. split; [exact H|]. split; [exact ND|]. split; [exact Hn|intros name []].
      - exists [(pl, as_string x)]. rewrite Ep in H. rewrite map_app, in_app_iff in H. split; [rewrite Ep, <- app_assoc; reflexivity|]. split; [apply in_app_iff; right; left; reflexivity|]. rewrite map_app. cbn [map snd]. split.
        + apply (Permutation_NoDup (Permutation_cons_append _ _)). constructor; [tauto|exact ND].
        + split; [intros name Hin; apply in_app_iff in Hin; destruct Hin as [Hin|[<-|[]]]; [apply Hn, Hin|tauto]|intros name [<-|[]]; reflexivity]. }
    destruct HN as (new1 & EP & Hpl & ND1 & Hn1 & Hx1).
    destruct (IH (mkNet P (n_trans net ++ [T]) (n_initial net) (n_final net)) x1 (more ++ [T]) (new ++ new1) F1) as (n2 & x2 & more2 & new2 & E2 & F2 & I2 & Fi2 & T2 & P2 & ND2 & Hn2 & Hw2 & M2 & Ht2).
    + cbn [n_trans]. rewrite Et, <- app_assoc. reflexivity.
    + cbn [n_places]. exact EP.
    + exact ND1.
    + exact Hn1.
    + exists n2, x2, (T :: more2), (new1 ++ new2). split; [exact E2|]. split; [exact F2|]. split; [exact I2|]. split; [exact Fi2|].
      split; [rewrite T2, <- app_assoc; reflexivity|]. split; [rewrite P2, <- !app_assoc; reflexivity|]. rewrite <- app_assoc in ND2, Hn2. split; [exact ND2|]. split; [exact Hn2|]. split.
      * intros name H. rewrite map_app, in_app_iff in H. destruct H as [H|H]; [apply Hx1 in H; exists c; split; [left; reflexivity|exact H]|]. apply Hw2 in H. destruct H as (d & Hd & H). exists d. split; [right; exact Hd|exact H].
      * split; [cbn [map tr_name T]; rewrite M2; reflexivity|]. intros t [<-|Ht]; [|apply Ht2, Ht]. split; [reflexivity|]. exists pl. split; [reflexivity|]. split; [reflexivity|].
        rewrite P2, <- !app_assoc. rewrite EP in Hpl. change (tr_name T) with c. fold x. rewrite !in_app_iff in *. tauto.
Qed.
