(** C58: datasets of traces and activities. *)
From Coq Require Import QArith Permutation Sorted.
From Verif Require Import Py XesModel HashModel ClusterModel ClusterSpec DrawModel DecodeModel DatasetModel DatasetSpec DatasetProofs.
Close Scope Q_scope.

(** The dataset of traces has a row Trace_i for each trace, a column for each class that occurs, ascending,
    and the scaled numbers of events of the classes; all lie in [0, 1]. *)
Theorem C58_traces : forall find_match order log src,
  (forall l, Permutation (order l) l) ->
  (forall t, In t log -> small (length (trace_representation src t))) ->
  exists d, traces_dataset_default find_match order log src = Ok d /\
    da_rows d = numbered "Trace_" (length log) /\
    tabulates log
      (fun c => exists t, In t log /\ In c (map (class_of find_match) (trace_representation src t)))
      (fun t c => count_occ str_eq_dec (map (class_of find_match) (trace_representation src t)) c) d /\
    (forall row q, In row (da_values d) -> In q row -> (0 <= q <= 1)%Q).
Proof.
  intros find_match order log src Ho Hs. destruct (default_proof find_match order Ho log src Hs) as (d & E & R & T).
  exists d. split; [exact E|]. split; [exact R|]. split; [exact T|]. intros row q. eapply tab_unit_proof. exact T.
Qed.
Print Assumptions C58_traces.

(** Two traces have equal rows exactly when they have the same events up to order and class, and the
    dataset does not depend on the order in which sets are walked. *)
Theorem C58_traces_rows : forall find_match order log src d i j t u r s,
  (forall l, Permutation (order l) l) ->
  (forall t, In t log -> small (length (trace_representation src t))) ->
  traces_dataset_default find_match order log src = Ok d ->
  nth_error log i = Some t -> nth_error log j = Some u ->
  nth_error (da_values d) i = Some r -> nth_error (da_values d) j = Some s ->
  (same_row r s <-> Permutation (map (class_of find_match) (trace_representation src t)) (map (class_of find_match) (trace_representation src u))).
Proof. intros find_match order log src d i j t u r s Ho. exact (default_rows_proof find_match order Ho log src d i j t u r s). Qed.
Print Assumptions C58_traces_rows.
Theorem C58_traces_order : forall find_match order order' log src,
  (forall l, Permutation (order l) l) -> (forall l, Permutation (order' l) l) ->
  traces_dataset_default find_match order log src = traces_dataset_default find_match order' log src.
Proof. exact traces_order_proof. Qed.
Print Assumptions C58_traces_order.

Definition ev_ (n : string) : bevent := BEvent (str n) None.
Definition log_ : list (list bevent) := [[ev_ "b"; ev_ "a"; ev_ "b"]; [ev_ "c"; BEvent (str "d") (Some [ev_ "a"; BEvent (str "f") (Some [ev_ "e"; ev_ "a"])])]; [ev_ "b"; ev_ "b"; ev_ "a"]; []].
Example C58_traces_case :
  traces_dataset_default None (fun l => rev l) log_ SrcEvents =
    Ok (mkData [[1; 2 # 2; 0; 0]; [0; 0 # 2; 1; 1]; [1; 2 # 2; 0; 0]; [0; 0 # 2; 0; 0]]%Q (map str ["Trace_0"; "Trace_1"; "Trace_2"; "Trace_3"]%string) (map str ["a"; "b"; "c"; "d"]%string)).
Proof. vm_compute. reflexivity. Qed.
Example C58_deepest_case :
  match traces_dataset_default (Some (fun n => Some (0, 1))) (fun l => l) log_ SrcDeepest with
  | Ok d => da_columns d = map str ["a"; "b"; "c"; "e"]%string /\
            Forall2 (Forall2 Qeq) (da_values d) [[1 # 2; 1; 0; 0]; [1; 0; 1; 1]; [1 # 2; 1; 0; 0]; [0; 0; 0; 0]]%Q
  | Err _ => False
  end.
Proof. vm_compute. repeat constructor. Qed.

(** For the Levenshtein distance: a row of numbers for each trace, one number per class, then zeros. *)
Theorem C58_levenshtein : forall find_match log src,
  exists d code len, traces_dataset_levenshtein find_match log src = Ok d /\
    da_rows d = numbered "Trace_" (length log) /\ da_columns d = numbered "Symbol_" len /\
    (forall t, In t log -> length (trace_representation src t) < len) /\
    (forall c c', (exists t, In t log /\ In c (map (class_of find_match) (trace_representation src t))) ->
       (exists t, In t log /\ In c' (map (class_of find_match) (trace_representation src t))) -> code c = code c' -> c = c') /\
    (forall c, (exists t, In t log /\ In c (map (class_of find_match) (trace_representation src t))) -> code c <> 0%N) /\
    da_values d = map (fun t => map code (map (class_of find_match) (trace_representation src t)) ++
                                repeat 0%N (len - length (map (class_of find_match) (trace_representation src t)))) log.
Proof. exact levenshtein_proof. Qed.
Print Assumptions C58_levenshtein.
Theorem C58_levenshtein_rows : forall find_match log src d i j t u r s,
  traces_dataset_levenshtein find_match log src = Ok d ->
  nth_error log i = Some t -> nth_error log j = Some u ->
  nth_error (da_values d) i = Some r -> nth_error (da_values d) j = Some s ->
  (r = s <-> map (class_of find_match) (trace_representation src t) = map (class_of find_match) (trace_representation src u)).
Proof. exact levenshtein_rows_proof. Qed.
Print Assumptions C58_levenshtein_rows.
Example C58_levenshtein_case :
  traces_dataset_levenshtein None log_ SrcUnderlying =
    Ok (mkData [[1; 2; 1; 0]; [3; 2; 4; 0]; [1; 1; 2; 0]; [0; 0; 0; 0]]%N (map str ["Trace_0"; "Trace_1"; "Trace_2"; "Trace_3"]%string)
          (map str ["Symbol_0"; "Symbol_1"; "Symbol_2"; "Symbol_3"]%string)).
Proof. vm_compute. reflexivity. Qed.

(** The dataset of the activities of a level: a row for each name, at its first instance, ascending, with the
    scaled numbers of classes; it fails exactly when classes are wanted of an activity without repeat set. *)
Theorem C58_activities : forall find_match order src log level instances,
  (forall l, Permutation (order l) l) ->
  (forall a, first_of_level level (concat instances) a -> repeat_in_log (map (@length bevent) log) a) ->
  (forall a c, first_of_level level (concat instances) a -> small (activity_number (class_of find_match) src log a c)) ->
  ((src = ActClasses /\ exists a, first_of_level level (concat instances) a /\ cn_repeat a = None) /\
   activities_dataset find_match order src log level instances = Err UserError) \/
  ((src = ActClasses -> forall a, first_of_level level (concat instances) a -> cn_repeat a <> None) /\
   exists nodes d, activities_dataset find_match order src log level instances = Ok (nodes, d) /\
     (forall a, In a nodes <-> first_of_level level (concat instances) a) /\
     StronglySorted (fun a b => str_leb a b = true /\ a <> b) (map cn_name nodes) /\ da_rows d = map cn_name nodes /\
     tabulates nodes (fun c => exists a, In a nodes /\ 0 < activity_number (class_of find_match) src log a c)
       (activity_number (class_of find_match) src log) d).
Proof. intros find_match order src log level instances Ho. exact (activities_proof find_match order Ho src log level instances). Qed.
Print Assumptions C58_activities.

(** Two activities have equal rows exactly when they count the same of every class; all values lie in [0, 1]. *)
Theorem C58_activities_rows : forall find_match order src log level instances nodes d,
  (forall l, Permutation (order l) l) ->
  (forall a, first_of_level level (concat instances) a -> repeat_in_log (map (@length bevent) log) a) ->
  (forall a c, first_of_level level (concat instances) a -> small (activity_number (class_of find_match) src log a c)) ->
  activities_dataset find_match order src log level instances = Ok (nodes, d) ->
  (forall row q, In row (da_values d) -> In q row -> (0 <= q <= 1)%Q) /\
  forall i j a b r s, nth_error nodes i = Some a -> nth_error nodes j = Some b ->
    nth_error (da_values d) i = Some r -> nth_error (da_values d) j = Some s ->
    (same_row r s <-> forall c, activity_number (class_of find_match) src log a c = activity_number (class_of find_match) src log b c).
Proof.
  intros find_match order src log level instances nodes d Ho Hp Hs E.
  destruct (activities_proof find_match order Ho src log level instances Hp Hs) as [[_ X]|[_ (nodes' & d' & E' & _ & _ & _ & T)]]; [congruence|].
  assert (nodes' = nodes /\ d' = d) as [-> ->] by (split; congruence). split; [intros row q; eapply tab_unit_proof; exact T|].
  intros i j a b r s Ha Hb Hr Hb'. rewrite (tab_same_proof nodes _ _ d i j a b r s T Ha Hb Hr Hb'). split.
  - intros H c. destruct (activity_number (class_of find_match) src log a c) as [|n] eqn:A; [destruct (activity_number (class_of find_match) src log b c) as [|m] eqn:B; [reflexivity|]|].
    + rewrite <- A, <- B. apply H. exists b. split; [apply (nth_error_In _ _ Hb)|lia].
    + rewrite <- A. apply H. exists a. split; [apply (nth_error_In _ _ Ha)|lia].
  - intros H c _. apply H.
Qed.
Print Assumptions C58_activities_rows.

(** Nothing depends on the order in which sets are walked. *)
Theorem C58_activities_order : forall find_match order order' src log level instances,
  (forall l, Permutation (order l) l) -> (forall l, Permutation (order' l) l) ->
  (forall a, first_of_level level (concat instances) a -> repeat_in_log (map (@length bevent) log) a) ->
  (forall a c, first_of_level level (concat instances) a -> small (activity_number (class_of find_match) src log a c)) ->
  match activities_dataset find_match order src log level instances, activities_dataset find_match order' src log level instances with
  | Ok (nodes, d), Ok (nodes', d') => nodes = nodes' /\ da_rows d = da_rows d' /\ da_columns d = da_columns d' /\ Forall2 same_row (da_values d) (da_values d')
  | Err e, Err e' => e = e'
  | _, _ => False
  end.
Proof. exact activities_order_proof. Qed.
Print Assumptions C58_activities_order.

Definition node_ (n : string) (p : nat * nat * nat) : cnode := mkCNode (str n) 1 [] (Some p).
Definition a_ := node_ "x" (0, 0, 2).
Definition b_ := node_ "u" (1, 0, 2).
Definition c_ := node_ "v" (2, 0, 3).
Definition e_ := node_ "w" (1, 0, 1).
Definition low_ : cnode := mkCNode (str "u") 0 [] (Some (0, 0, 1)).
Definition instances_ : list (list cinst) := [[mkCInst a_ 0 2; mkCInst low_ 2 1]; [mkCInst b_ 0 2]; [mkCInst c_ 0 3; mkCInst e_ 3 1]].
Lemma instances_first a : first_of_level 1 (concat instances_) a <-> In a [a_; b_; c_; e_].
Proof.
  unfold instances_. cbn [concat app]. split.
  - intros (l1 & x & l2 & E & <- & L & _). destruct l1 as [|? [|? [|? [|? [|? l1]]]]]; cbn in E; injection E; intros; subst; cbn in *; try tauto; try discriminate. destruct l1; discriminate.
  - intros [<-|[<-|[<-|[<-|[]]]]]; [exists []|exists [mkCInst a_ 0 2; mkCInst low_ 2 1]|exists [mkCInst a_ 0 2; mkCInst low_ 2 1; mkCInst b_ 0 2]|exists [mkCInst a_ 0 2; mkCInst low_ 2 1; mkCInst b_ 0 2; mkCInst c_ 0 3]];
      eexists; eexists; (split; [reflexivity|]); (split; [reflexivity|]); (split; [reflexivity|]); cbn; intros y Hy; intuition (subst; cbn in *; discriminate).
Qed.
Example C58_activities_case :
  (forall a, first_of_level 1 (concat instances_) a -> repeat_in_log (map (@length bevent) log_) a) /\
  (forall a c, first_of_level 1 (concat instances_) a -> small (activity_number (class_of None) ActSubTraces log_ a c)) /\
  match activities_dataset None (fun l => rev l) ActSubTraces log_ 1 instances_ with
  | Ok (nodes, d) => nodes = [b_; c_; e_; a_] /\ da_columns d = map str ["a"; "b"; "c"; "d"]%string /\
      Forall2 same_row (da_values d) [[0; 0; 1; 1]; [1; 1; 0; 0]; [0; 0; 1; 0]; [1; 1 # 2; 0; 0]]%Q
  | Err _ => False
  end.
Proof.
  split; [|split].
  - intros a Ha. apply instances_first in Ha. destruct Ha as [<-|[<-|[<-|[<-|[]]]]]; cbn; eexists; (split; [reflexivity|cbn; lia]).
  - intros a c Ha. apply instances_first in Ha. unfold small, activity_number. eapply Z.le_lt_trans; [apply inj_le, count_occ_bound|].
    rewrite map_length. destruct Ha as [<-|[<-|[<-|[<-|[]]]]]; vm_compute; reflexivity.
  - vm_compute. repeat constructor.
Qed.

(** After activities have been merged, the classes of the activities cannot be made into a dataset again. *)
Theorem C58_not_twice : forall find_match order log level instances processed labels out x k,
  (forall l, Permutation (order l) l) ->
  NoDup (map cn_name processed) -> length processed = length labels ->
  merge_activities (map (@length bevent) log) instances processed labels = Ok out ->
  (forall a, In a processed -> cn_level a = level) ->
  (forall y, In y (concat instances) -> repeat_in_log (map (@length bevent) log) (ci_node y)) ->
  In x (concat instances) -> 0 < ci_length x ->
  in_cluster processed labels (cn_name (ci_node x)) k -> crowded labels k ->
  (forall y, In y (concat instances) -> cn_name (ci_node y) <> create_cluster_name k) ->
  activities_dataset find_match order ActClasses log level out = Err UserError.
Proof.
  intros find_match order log level instances processed labels out x k Ho Hn Hl Hm Hlevel Hp Hx Hlen Hk Hc Hf.
  exact (twice_proof find_match order Ho log level instances out processed labels Hn Hl Hm Hlevel Hp x k Hx Hlen Hk Hc Hf).
Qed.
Print Assumptions C58_not_twice.
Example C58_not_twice_case :
  in_cluster [b_; c_; e_; a_] [Some 0; Some 2; Some 2; Some 0]%N (str "x") 0 /\ crowded [Some 0; Some 2; Some 2; Some 0]%N 0 /\
  match merge_activities (map (@length bevent) log_) instances_ [b_; c_; e_; a_] [Some 0; Some 2; Some 2; Some 0]%N with
  | Ok out => activities_dataset None (fun l => l) ActClasses log_ 1 out = Err UserError
  | Err _ => False
  end.
Proof.
  split; [exists 3, a_; split; [reflexivity|split; reflexivity]|]. split; [exists 0, 3; split; [lia|split; reflexivity]|]. vm_compute. reflexivity.
Qed.

(** With the other sources it works, but two clusters look the same whatever they were made of. *)
Theorem C58_clusters_alike_refuted : exists log level instances processed labels out nodes d a b r s,
  merge_activities (map (@length bevent) log) instances processed labels = Ok out /\
  activities_dataset None (fun l => l) ActSubTraces log level out = Ok (nodes, d) /\
  nth_error nodes 0 = Some a /\ nth_error nodes 1 = Some b /\ cn_classes a = [1; 2]%N /\ cn_classes b = [3; 4]%N /\
  nth_error (da_values d) 0 = Some r /\ nth_error (da_values d) 1 = Some s /\ same_row r s.
Proof.
  set (n1 := mkCNode (str "p") 1 [1]%N (Some (0, 0, 1))). set (n2 := mkCNode (str "q") 1 [2]%N (Some (0, 1, 1))).
  set (n3 := mkCNode (str "r") 1 [3]%N (Some (1, 0, 1))). set (n4 := mkCNode (str "s") 1 [4]%N (Some (1, 1, 1))). set (n5 := mkCNode (str "t") 1 [1; 2]%N (Some (0, 0, 2))).
  exists [[ev_ "a"; ev_ "b"]; [ev_ "c"; ev_ "d"]], 1%N, [[mkCInst n1 0 1; mkCInst n2 1 1]; [mkCInst n3 0 1; mkCInst n4 1 1; mkCInst n5 2 1]], [n1; n2; n3; n4; n5], [Some 0; Some 0; Some 1; Some 1; Some 2]%N.
  do 7 eexists. split; [vm_compute; reflexivity|]. split; [vm_compute; reflexivity|]. split; [reflexivity|]. split; [reflexivity|]. split; [reflexivity|]. split; [reflexivity|].
  split; [reflexivity|]. split; [reflexivity|]. vm_compute. repeat constructor.
Qed.
Print Assumptions C58_clusters_alike_refuted.
