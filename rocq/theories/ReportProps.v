(** C55: reports on activities and events marked with them. *)
From Coq Require Import Permutation Sorted.
From Verif Require Import Py XesModel LogModel HashModel PatternModel TreeModel TreeSpec ActModel ActSpec ActLogModel ActLogSpec ActLogProofs HighModel HighSpec
  ReportModel ReportSpec ReportProofs.

(** AddActivityNameToAllEvents: nothing but the entry 'activity' of covered events changes; it becomes the
    unique name of the last instance listed that covers the event. *)
Theorem C55_marked : forall instances traces,
  (forall i a t, nth_error instances i = Some a -> nth_error traces i = Some t -> Forall (fits (length t)) a) ->
  exists r, mark_log instances traces = Ok r /\ map (@length _) r = map (@length _) traces /\
    forall i t j e, nth_error traces i = Some t -> nth_error t j = Some e ->
      exists t', nth_error r i = Some t' /\ nth_error t' j = Some (marked (nth i instances []) j e).
Proof. exact mark_log_ok. Qed.
Print Assumptions C55_marked.

(** An instance reaching beyond its trace raises IndexError. *)
Theorem C55_marking_fails : forall instances traces,
  (exists i a t, nth_error instances i = Some a /\ nth_error traces i = Some t /\ ~ Forall (fits (length t)) a) -> mark_log instances traces = Err IndexError.
Proof. exact mark_log_err. Qed.
Print Assumptions C55_marking_fails.

(** For sorted and disjoint instances an event without the entry has it afterwards exactly if it is covered. *)
Theorem C55_marked_iff_covered : forall instances traces,
  Forall2 (fun a t => ordered 0 (length t) a) instances traces ->
  exists r, mark_log instances traces = Ok r /\
    forall i a t t' j e, nth_error instances i = Some a -> nth_error traces i = Some t -> nth_error r i = Some t' -> nth_error t j = Some e -> eget e activity_key = None ->
    exists e', nth_error t' j = Some e' /\
      forall n, eget e' activity_key = Some (VStr n) <-> exists x, In x a /\ in_start x <= j < in_end x /\ nd_unique (an_data (in_node x)) = n.
Proof. exact marked_iff_proof. Qed.
Print Assumptions C55_marked_iff_covered.

Definition act_ (i : N) (n : string) (c : list (anode ndata)) : anode ndata := ANode (mkND (str n) 0 (unique_name i) i (mkRS 0 1 0)) [i] c.
Definition ev_ (n : string) : event := [(concept_name, VStr (str n))].
Example C55_marked_case : mark_log [[mkInst (act_ 3 "A" []) 0 2; mkInst (act_ 4 "B" []) 1 1]] [[ev_ "x"; ev_ "y"; ev_ "z"]; [ev_ "w"]] =
  Ok [[[(concept_name, VStr (str "x")); (str "activity", VStr (str "Activity_3"))]; [(concept_name, VStr (str "y")); (str "activity", VStr (str "Activity_4"))]; ev_ "z"]; [ev_ "w"]].
Proof. vm_compute. reflexivity. Qed.
Example C55_iff_hyps : Forall2 (fun a (t : list event) => ordered 0 (length t) a) [[mkInst (act_ 3 "A" []) 0 2; mkInst (act_ 4 "B" []) 2 1]; []] [[ev_ "x"; ev_ "y"; ev_ "z"]; [ev_ "w"]].
Proof. repeat constructor. Qed.
Example C55_fails_case : mark_log [[mkInst (act_ 3 "A" []) 0 2]] [[ev_ "x"]] = Err IndexError.
Proof. vm_compute. reflexivity. Qed.

(** SaveAllActivitiesInstancesNames: one line per node, when it first occurs. *)
Theorem C55_instances_names : forall instances, let nodes := firsts (map (fun x => an_data (in_node x)) (concat instances)) in
  save_instances_names instances = flat_map name_line nodes /\ NoDup (map nd_id nodes) /\
  forall i, In i (map nd_id nodes) <-> exists a x, In a instances /\ In x a /\ nd_id (an_data (in_node x)) = i.
Proof.
  intros instances nodes. split; [apply save_names_proof|]. destruct (firsts_spec (map (fun x : inst => an_data (in_node x)) (concat instances))) as [H1 H2]. split; [exact H1|].
  intros i. unfold nodes. rewrite H2, map_map, in_map_iff. split.
  - intros [x [<- Hx]]. apply in_concat in Hx. destruct Hx as [a [Ha Hx]]. eauto.
  - intros [a [x [Ha [Hx <-]]]]. exists x. split; [reflexivity|]. apply in_concat. eauto.
Qed.
Print Assumptions C55_instances_names.
Example C55_instances_case : save_instances_names [[mkInst (act_ 3 "A" []) 0 2; mkInst (act_ 4 "A" []) 2 1]; [mkInst (act_ 3 "A" []) 1 1]] = str "Activity_3=A
Activity_4=A
".
Proof. vm_compute. reflexivity. Qed.

(** WriteActivitiesInstancesIndices: the file determines, for every trace, the instances with their names,
    positions and lengths. *)
Theorem C55_indices : forall a b, Forall (Forall tag_ok) a -> Forall (Forall tag_ok) b -> write_indices 0 a = write_indices 0 b ->
  map (map tag) a = map (map tag) b.
Proof. intros a b. apply indices_inj. Qed.
Print Assumptions C55_indices.
(** The names of discovered activities are of that kind. *)
Theorem C55_indices_discovered : forall lo hi x, numbered lo hi (in_node x) -> tag_ok x.
Proof. intros lo hi x H. exact (numbered_tag lo hi (in_node x) x eq_refl H). Qed.
Print Assumptions C55_indices_discovered.
Example C55_indices_case : write_indices 0 [[mkInst (act_ 3 "A" []) 0 2; mkInst (act_ 4 "B" []) 12 1]; []] = str "Trace 0
(Activity_3, 0, 2)
(Activity_4, 12, 1)

Trace 1

".
Proof. vm_compute. reflexivity. Qed.

(** PrintActivitiesNamesToHashes: every node of the forest once, breadth first. *)
Theorem C55_names_to_hashes : forall F, exists h, depth_ h F = [] /\
  print_names_to_hashes F = Ok (map (fun a => show_int (Z.of_N (string_poly_hash (nd_name (an_data a)))) ++ str " = " ++ nd_name (an_data a)) (flat_map (fun d => depth_ d F) (seq 0 h))) /\
  Permutation (flat_map (fun d => depth_ d F) (seq 0 h)) (everywhere F).
Proof. exact names_to_hashes_proof. Qed.
Print Assumptions C55_names_to_hashes.
Example C55_hashes_case : print_names_to_hashes [act_ 0 "a" [act_ 1 "b" [act_ 2 "c" []]]; act_ 3 "d" []] = Ok [str "98 = a"; str "101 = d"; str "99 = b"; str "100 = c"].
Proof. vm_compute. reflexivity. Qed.

(** SaveAllActivitiesNames: a section per level, levels ascending; in it pairwise different names of activities of
    the forest of that level, among them those of all its top activities and of all children of activities written. *)
Theorem C55_saved_names : forall acts, exists ks (shown : Z -> list (anode ndata)),
  StronglySorted Z.lt ks /\ (forall k, In k ks <-> exists a, In a acts /\ nd_level (an_data a) = k) /\
  save_all_names acts = Ok (flat_map (fun k => level_section k (map (fun a => nd_name (an_data a)) (shown k))) ks) /\
  forall k, In k ks -> let tops := filter (fun a => (nd_level (an_data a) =? k)%Z) acts in let names := map (fun a => nd_name (an_data a)) (shown k) in
    NoDup names /\ incl (shown k) (everywhere tops) /\ (forall a, In a tops -> In (nd_name (an_data a)) names) /\
    (forall a c, In a (shown k) -> In c (an_children a) -> In (nd_name (an_data c)) names).
Proof. exact saved_names_proof. Qed.
Print Assumptions C55_saved_names.

(** When the names in the forest of every level differ, all of them are written, every activity before
    those below it, later ones first. *)
Theorem C55_saved_all_names : forall acts, 
  (forall k, NoDup (map (fun a => nd_name (an_data a)) (everywhere (filter (fun a => (nd_level (an_data a) =? k)%Z) acts)))) ->
  exists ks, StronglySorted Z.lt ks /\ (forall k, In k ks <-> exists a, In a acts /\ nd_level (an_data a) = k) /\
  save_all_names acts = Ok (flat_map (fun k => level_section k (map (fun a => nd_name (an_data a)) (flat_map backwards (rev (filter (fun a => (nd_level (an_data a) =? k)%Z) acts))))) ks) /\
  forall l, Permutation (flat_map backwards (rev l)) (everywhere l).
Proof. exact saved_all_names_proof. Qed.
Print Assumptions C55_saved_all_names.
Example C55_saved_case : names_of_level [act_ 0 "a" [act_ 1 "b" [act_ 2 "c" []]; act_ 4 "e" []]; act_ 3 "d" []] = Ok [str "d"; str "a"; str "e"; str "b"; str "c"].
Proof. vm_compute. reflexivity. Qed.

Definition demo_acts : list (anode ndata) := [act_ 0 "a" [act_ 1 "b" [act_ 2 "c" []]; act_ 4 "e" []]; act_ 3 "d" []].
Example C55_saved_hyps : forall k, NoDup (map (fun a => nd_name (an_data a)) (everywhere (filter (fun a => (nd_level (an_data a) =? k)%Z) demo_acts))).
Proof.
  intros k. destruct (Z.eqb_spec 0 k) as [<-|H].
  - vm_compute. repeat constructor; cbn; intuition discriminate.
  - unfold demo_acts. cbn [filter an_data act_ nd_level]. apply Z.eqb_neq in H. rewrite H. constructor.
Qed.

(** Otherwise activities below the second one of a name may be missing. *)
Theorem C55_saved_names_refuted : exists acts a text, In a (everywhere acts) /\ save_all_names acts = Ok text /\
  forall pre post, text <> pre ++ nd_name (an_data a) ++ post.
Proof.
  exists [act_ 1 "a" [act_ 2 "zq" []]; act_ 3 "a" []], (act_ 2 "zq" []). eexists. split; [vm_compute; auto|]. split; [vm_compute; reflexivity|].
  intros pre post E. apply (f_equal (fun l => existsb (N.eqb 113) l)) in E. rewrite !existsb_app, (orb_assoc (existsb _ pre)), (orb_comm (existsb _ pre)) in E. discriminate E.
Qed.
Print Assumptions C55_saved_names_refuted.

(** PrintUnattachedEvents: the names of the events outside all instances, each once. *)
Theorem C55_unattached_names : forall order l instances, (forall k, Permutation (order k) k) ->
  Forall2 (fun a t => ordered 0 (length (t_events t)) a) instances (l_traces l) ->
  (forall t e, In t (l_traces l) -> In e (t_events t) -> exists s, eget e concept_name = Some (VStr s)) ->
  exists names, unattached_names order l instances = Ok names /\ NoDup names /\
    forall s, In s names <-> exists i a t j e, nth_error instances i = Some a /\ nth_error (l_traces l) i = Some t /\
      In j (free_positions a t) /\ nth_error (t_events t) j = Some e /\ eget e concept_name = Some (VStr s).
Proof. exact unattached_names_proof. Qed.
Print Assumptions C55_unattached_names.

(** CalculatePercentageOfUnattachedEvents: the events outside all instances over all events, a share between 0 and 1. *)
Theorem C55_share : forall l instances, Forall2 (fun a t => ordered 0 (length (t_events t)) a) instances (l_traces l) ->
  let total := list_sum (map (fun t => length (t_events t)) (l_traces l)) in
  let free := list_sum (map (fun p => length (free_positions (fst p) (snd p))) (combine instances (l_traces l))) in
  unattached_share l instances = (if total =? 0 then None else Some (free, total)) /\ free <= total.
Proof. exact share_proof. Qed.
Print Assumptions C55_share.
Definition demo_log : eventlog := log_of_traces [trace_of_events [ev_ "x"; ev_ "y"; ev_ "x"; ev_ "x"]; trace_of_events [ev_ "z"]].
Definition demo_instances : list (list inst) := [[mkInst (act_ 3 "A" []) 1 2]; []].
Example C55_share_case : unattached_share demo_log demo_instances = Some (3, 5) /\ unattached_names (@rev _) demo_log demo_instances = Ok [str "z"; str "x"].
Proof. split; vm_compute; reflexivity. Qed.
Example C55_share_hyps : Forall2 (fun a t => ordered 0 (length (t_events t)) a) demo_instances (l_traces demo_log) /\
  (forall t e, In t (l_traces demo_log) -> In e (t_events t) -> exists s, eget e concept_name = Some (VStr s)).
Proof.
  split; [repeat constructor|]. intros t e [<-|[<-|[]]] He; cbn in He; repeat (destruct He as [<-|He]; [eexists; vm_compute; reflexivity|]); destruct He.
Qed.
