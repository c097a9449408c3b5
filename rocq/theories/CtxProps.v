(** Property C39: pipeline contexts are independent key/value stores. *)
From Verif Require Import Py LogModel HeapModel HeapSpec CtxModel CtxSpec CtxProofs.

(** Whatever a program does with the contexts it creates (setting, reading, testing, removing
    entries, asking for the colour cache, copying), it observes independent stores: an accessor
    returns what was stored last under its key, a missing key raises, a copy has the same entries
    and later changes of one are not seen in the other.  Nothing else in the heap changes. *)
Theorem C39_contexts : forall h ops, (forall l, next h <= l -> cells h l = None) -> ops_ok 0 ops -> Forall (op_vals (next h)) ops ->
  let '(h', env, os) := run_ops ops (h, []) in
  exists ss, spec_ops (fun v => forall l, In l (vref v) -> l < next h) [] ops os ss /\
    Forall2 (fun c s => exists l d, c = HRef l /\ cells h' l = Some (OCtx d) /\ forall k, dget str_eq_dec d k = s k) env ss /\
    NoDup env /\ (forall x, x < next h -> cells h' x = cells h x).
Proof. exact contexts_proof. Qed.
Print Assumptions C39_contexts.

(** The twelve accessors use different keys, so that none of them disturbs another. *)
Theorem C39_keys : NoDup [log_key; activities_key; repeat_sets_key; traces_activities_key; patterns_key; petri_net_key;
  event_class_tree_key; activities_to_logs_key; activity_name_key; cached_colors_key; serialized_graph_key; graph_key].
Proof. repeat (constructor; [cbn; intuition discriminate|]). constructor. Qed.
Print Assumptions C39_keys.

(** Two contexts, one copied from the other. *)
Definition ex_ops : list ctx_op :=
  [ OpNew; OpWith 0 log_key (HRef 0); OpCopy 0; OpWith 0 log_key (HAtom (VInt 7)); OpWith 1 graph_key (HAtom (VInt 8));
    OpGet 1 log_key; OpGet 0 log_key; OpGet 0 graph_key; OpRemove 1 log_key; OpHas 1 log_key; OpHas 0 log_key; OpRemove 1 log_key;
    OpColors 1; OpColors 1; OpHas 0 cached_colors_key; OpDeepCopy 1 ].
Example C39_case :
  let h := mkHeap (fun l => if l =? 0 then Some (ODict []) else None) 1 in
  ops_ok 0 ex_ops /\ Forall (op_vals (next h)) ex_ops /\
  snd (run_ops ex_ops (h, [])) =
    [ OutCtx 0; OutCtx 0; OutCtx 1; OutCtx 0; OutCtx 1;
      OutVal (HRef 0); OutVal (HAtom (VInt 7)); OutRaise ValueError; OutUnit; OutBool false; OutBool true; OutRaise KeyError;
      OutVal (HRef 3); OutVal (HRef 3); OutBool false; OutRaise NotImplementedErr ].
Proof. split; [cbn; repeat split; lia|]. split; [repeat constructor|reflexivity]. Qed.
