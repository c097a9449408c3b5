From Coq Require Import Permutation.
From Verif Require Import Py PatternModel PatternSpec NearModel NearSpec NearProofs.

(** C48: a maximal repeat is reported as near-super-maximal exactly when one of its occurrences in
    the trace lies in no occurrence of another maximal repeat; each one is reported once.  Whatever
    the iteration orders of the two sets the code goes through. *)
Theorem C48_near_super_maximal_exact :
  forall (interval_order : list interval -> list interval) (index_order : list nat -> list nat),
  (forall l, Permutation (interval_order l) l) -> (forall l, Permutation (index_order l) l) ->
  forall trace repeats, proper_repeats trace repeats ->
  let result := near_super_maximal_of_trace interval_order index_order trace repeats in
  NoDup result /\ forall r, In r result <-> In r repeats /\ exists i, free_at trace repeats r i.
Proof. exact near_exact_proof. Qed.
Print Assumptions C48_near_super_maximal_exact.

(** C48: every super-maximal repeat is near-super-maximal. *)
Theorem C48_super_maximal_is_near :
  forall (interval_order : list interval -> list interval) (index_order : list nat -> list nat),
  (forall l, Permutation (interval_order l) l) -> (forall l, Permutation (index_order l) l) ->
  forall trace repeats r, proper_repeats trace repeats ->
  In r (super_maximal_of_trace trace repeats) -> In r (near_super_maximal_of_trace interval_order index_order trace repeats).
Proof. exact super_is_near_proof. Qed.
Print Assumptions C48_super_maximal_is_near.

(** C48: but not the other way round. *)
Theorem C48_near_is_super_maximal_refuted : exists trace repeats r, proper_repeats trace repeats /\
  In r (near_super_maximal_of_trace (fun l => l) (fun l => l) trace repeats) /\ ~ In r (super_maximal_of_trace trace repeats).
Proof.
  exists [1; 2; 9; 1; 2; 8; 2]%N, [mkSub 0 2; mkSub 1 1], (mkSub 1 1). split; [|split].
  - split; [intros r [<-|[<-|[]]]; cbn; lia|]. repeat constructor; cbn; intuition discriminate.
  - vm_compute. auto.
  - vm_compute. intuition discriminate.
Qed.
Print Assumptions C48_near_is_super_maximal_refuted.

Example C48_ex : near_super_maximal_of_trace (@rev _) (fun l => l) [1; 2; 9; 1; 2; 8; 2; 3; 3]%N [mkSub 0 2; mkSub 1 1; mkSub 0 1; mkSub 7 1] = [mkSub 0 2; mkSub 7 1; mkSub 1 1].
Proof. vm_compute. reflexivity. Qed.
Example C48_ex_hyps : proper_repeats [1; 2; 9; 1; 2; 8; 2; 3; 3]%N [mkSub 0 2; mkSub 1 1; mkSub 0 1; mkSub 7 1].
Proof. split; [intros r [<-|[<-|[<-|[<-|[]]]]]; cbn; lia|]. repeat constructor; cbn; intuition discriminate. Qed.
