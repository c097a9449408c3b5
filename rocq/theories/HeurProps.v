(** Theorems about the heuristic miner of the backend. *)
From Coq Require Import Permutation Sorted QArith.
From Verif Require Import Py PyFacts InfoModel InfoSpec ReplayModel ReplaySpec RInfoModel RInfoSpec AlphaModel AlphaSpec HeurModel HeurSpec HeurProofs1 HeurProofs2 HeurProofs3 HeurProofs4 HeurProofs5.
Open Scope nat_scope.

(** For every log of traces of at least two events, in which no name looks like that of a silent transition, the miner ends
    and gives the net of the relations: a place behind the transition of each name others depend on, a silent transition
    for each largest group of names which happen together, and arcs for names which alternate. *)
Theorem C78_net : forall ords log p next, (forall i, any_order (ords i)) -> clear_names log -> (forall t, In t log -> 2 <= length t) ->
  exists fuel0 net next' blocks loud, (forall fuel, fuel0 <= fuel -> discover_petri_net_heuristic ords fuel log p next = Ok (net, next')) /\ heur_net log p blocks loud net.
Proof. exact heur_proof. Qed.
Print Assumptions C78_net.
(** Whenever it ends it ends so. *)
Theorem C78_result : forall ords log p next fuel r, (forall i, any_order (ords i)) -> clear_names log -> (forall t, In t log -> 2 <= length t) ->
  discover_petri_net_heuristic ords fuel log p next = r -> r = Err Diverges \/ exists net next' blocks loud, r = Ok (net, next') /\ heur_net log p blocks loud net.
Proof. exact heur_result. Qed.
Print Assumptions C78_result.
(** A trace of less than two events is a panic. *)
Theorem C78_short_traces_panic : forall ords fuel log p next, (exists t, In t log /\ length t < 2) -> discover_petri_net_heuristic ords fuel log p next = rpanic.
Proof. exact heur_panic. Qed.
Print Assumptions C78_short_traces_panic.

Definition plain_ords : nat -> nat -> forall A : Type, list A -> list A := fun _ _ _ l => l.
Definition turned_ords : nat -> nat -> forall A : Type, list A -> list A := fun _ _ _ l => rev l.
Definition hp : hparams := mkHParams (1 # 5) 1 1 (1 # 10) (1 # 2).
Definition h_log : list (list pystr) := [[str "a"; str "b"; str "c"; str "d"]; [str "a"; str "c"; str "b"; str "d"]; [str "a"; str "e"; str "d"]].
Definition shown (r : result (pnet * N)) : option (list (pystr * bool * list N * list N) * dict N pystr) :=
  match r with Ok (net, _) => Some (map (fun t => (tr_name t, tr_silent t, ins t, outs t)) (n_trans net), n_places net) | Err _ => None end.
(** After a come b and c, in any order, or e; the place behind a is shared by the silent transition and e. *)
Example C78_net_case :
  shown (discover_petri_net_heuristic plain_ords 20 h_log hp 0) =
  Some ([(str "a", false, [], [5%N]); (str "b", false, [9%N], [16%N]); (str "c", false, [12%N], [19%N]); (str "d", false, [16; 19; 22]%N, []); (str "e", false, [5%N], [22%N]);
         (str "silent_start_a", true, [5%N], [9; 12]%N)],
        [(5%N, str "post_a"); (9%N, str "pre_b"); (12%N, str "pre_c"); (16%N, str "post_b"); (19%N, str "post_c"); (22%N, str "post_e")]).
Proof. vm_compute. reflexivity. Qed.
Example C78_net_hypotheses : (forall i, any_order (plain_ords i)) /\ (forall i, any_order (turned_ords i)) /\ (forall t, In t h_log -> 2 <= length t) /\ clear_names h_log.
Proof.
  split; [intros i k A l; apply Permutation_refl|]. split; [intros i k A l; symmetry; apply Permutation_rev|]. split; [intros t [<-|[<-|[<-|[]]]]; cbn; lia|].
  assert (K : forall c, class_of h_log c -> length c = 1). { intros c (t & Ht & Hc). destruct Ht as [<-|[<-|[<-|[]]]]; repeat (destruct Hc as [<-|Hc]; [reflexivity|]); destruct Hc. }
  intros c a Hc Ha E. apply K in Hc, Ha. rewrite E, app_length, Ha in Hc. vm_compute in Hc. discriminate.
Qed.
(** The group after a in the log. *)
Example C78_group_case : together h_log hp (str "a") (str "b") (str "c") /\ ~ together h_log hp (str "a") (str "b") (str "e") /\ depends h_log hp (str "a") (str "e").
Proof.
  split; [vm_compute; reflexivity|]. split; [vm_compute; discriminate|]. split.
  - split; [exists [str "a"; str "e"; str "d"]; cbn [h_log In]; auto|]. split; [exists [str "a"; str "e"; str "d"]; cbn [h_log In]; auto|]. split; [vm_compute; auto|vm_compute; reflexivity].
  - exists (str "e"). split; [|split].
    + split; [exists [str "a"; str "e"; str "d"]; cbn [h_log In]; auto|]. split; [exists [str "a"; str "e"; str "d"]; cbn [h_log In]; auto|]. split; [vm_compute; auto|vm_compute; reflexivity].
    + intros c (_ & (t & Ht & Hc) & _). destruct Ht as [<-|[<-|[<-|[]]]]; repeat (destruct Hc as [<-|Hc]; [vm_compute; discriminate|]); destruct Hc.
    + vm_compute. discriminate.
Qed.
(** Names which alternate: b takes what a gives and gives what a takes, and a gets nothing as b has no arcs of its own. *)
Example C78_loops_case :
  shown (discover_petri_net_heuristic plain_ords 20 [[str "x"; str "a"; str "b"; str "a"; str "b"; str "a"; str "c"]] hp 0) =
  Some ([(str "x", false, [], [4%N]); (str "a", false, [4%N], [7%N]); (str "b", false, [7%N], [4%N]); (str "c", false, [7%N], [])], [(4%N, str "post_x"); (7%N, str "post_a")]).
Proof. vm_compute. reflexivity. Qed.

(** With a threshold which is not negative names do not depend on one another both ways, ... *)
Theorem C78_one_way : forall log p a b, (0 <= hp_dependency p)%Q -> depends log p a b -> depends log p b a -> a = b.
Proof. exact depends_one_way. Qed.
Print Assumptions C78_one_way.
(** ... and the strongest follower is kept. *)
Theorem C78_follower_kept : forall log p a, (0 <= hp_dependency p)%Q -> (0 <= hp_best p)%Q -> (exists b, candidate log p a b) -> exists b, depends log p a b.
Proof. exact follower_kept. Qed.
Print Assumptions C78_follower_kept.

(** The net has no marking: annotating it with any log is an error of the part. *)
Theorem C78_no_annotation : forall log p blocks loud net, heur_net log p blocks loud net -> forall fuel log' b, log' <> [] -> annotate_part (annotate_with_counts fuel log' net b) = Err UserError.
Proof. intros log p blocks loud net H fuel log' b Hl. rewrite (ReplayProofs.counts_no_marking_proof net fuel log' b (hn_initial _ _ _ _ _ H) Hl). reflexivity. Qed.
Print Assumptions C78_no_annotation.
(** Silent transitions never fire for ever. *)
Theorem C78_silent_ends : forall log p blocks loud net, heur_net log p blocks loud net -> silent_ends net.
Proof. exact heur_silent_ends. Qed.
Print Assumptions C78_silent_ends.
(** If no names alternate, any log can be replayed from any marking: replay ends without a panic and says for each trace whether there is a run. *)
Theorem C78_replay : forall log p blocks loud net, heur_net log p blocks loud net ->
  (forall a b, class_of log a -> class_of log b -> a <> b -> ~ alternate log p a b) -> forall init log', proper init ->
  let marked := mkNet (n_places net) (n_trans net) (Some init) (n_final net) in
  exists n states, (forall fuel, n <= fuel -> replay_petri_net fuel log' marked = Ok (Some states)) /\ Forall2 (replay_right marked init) log' states.
Proof. exact heur_replay. Qed.
Print Assumptions C78_replay.
Example C78_replay_case : forall a b, class_of h_log a -> class_of h_log b -> a <> b -> ~ alternate h_log hp a b.
Proof.
  intros a b (t & Ht & Ha) (u & Hu & Hb) _.
  assert (In a [str "a"; str "b"; str "c"; str "d"; str "e"]) by (destruct Ht as [<-|[<-|[<-|[]]]]; cbn [In] in *; tauto).
  assert (In b [str "a"; str "b"; str "c"; str "d"; str "e"]) by (destruct Hu as [<-|[<-|[<-|[]]]]; cbn [In] in *; tauto).
  cbn [In] in H, H0. repeat (destruct H as [<-|H]; [repeat (destruct H0 as [<-|H0]; [vm_compute; discriminate|]); destruct H0|]). destruct H.
Qed.

(** The log itself is in general not replayed: the transition after a choice waits for all that was to be chosen from. *)
Theorem C78_replays_own_log_refuted : exists net next net' next', discover_petri_net_heuristic plain_ords 20 h_log hp 0 = Ok (net, next) /\
  ensure_initial_marking (fun l => l) h_log net next = Ok (net', next') /\ replay_petri_net 100 h_log net' = Ok (Some [None; None; None]).
Proof. eexists _, _, _, _. split; [vm_compute; reflexivity|]. split; vm_compute; reflexivity. Qed.
Print Assumptions C78_replays_own_log_refuted.
(** With names which alternate there can be two arcs from one place to a transition, and replay of the log itself is a panic. *)
Theorem C78_replay_never_panics_refuted : exists log net next net' next', discover_petri_net_heuristic plain_ords 20 log hp 0 = Ok (net, next) /\
  ensure_initial_marking (fun l => l) log net next = Ok (net', next') /\ replay_petri_net 100 log net' = rpanic.
Proof.
  exists [[str "b"; str "a"; str "b"; str "a"]; [str "c"; str "a"; str "c"; str "a"]]. eexists _, _, _, _. split; [vm_compute; reflexivity|]. split; vm_compute; reflexivity.
Qed.
Print Assumptions C78_replay_never_panics_refuted.
(** With a name which looks like that of a silent transition the net depends on the order of a hash table. *)
Theorem C78_order_refuted : exists ords ords' log net net' next' next'' t t', (forall i, any_order (ords i)) /\ (forall i, any_order (ords' i)) /\ (forall t, In t log -> 2 <= length t) /\
  discover_petri_net_heuristic ords 20 log hp 0 = Ok (net, next') /\ discover_petri_net_heuristic ords' 20 log hp 0 = Ok (net', next'') /\
  In t (n_trans net) /\ In t' (n_trans net') /\ tr_name t = str "x" /\ tr_name t' = str "x" /\ ins t = [] /\ length (ins t') = 2.
Proof.
  exists plain_ords, (fun _ k _ l => if k =? 37 then rev l else l), [[str "a"; str "b"; str "c"]; [str "a"; str "c"; str "b"]; [str "silent_start_a"; str "x"; str "silent_start_a"; str "x"; str "silent_start_a"]].
  eexists _, _, _, _, _, _. split; [intros i k A l; apply Permutation_refl|]. split; [intros i k A l; destruct (k =? 37); [symmetry; apply Permutation_rev|apply Permutation_refl]|].
  split; [intros t [<-|[<-|[<-|[]]]]; cbn; lia|]. split; [vm_compute; reflexivity|]. split; [vm_compute; reflexivity|]. cbn [n_trans].
  split; [do 4 right; left; reflexivity|]. split; [do 4 right; left; reflexivity|]. vm_compute. auto.
Qed.
Print Assumptions C78_order_refuted.
