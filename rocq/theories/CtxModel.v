(** Pipeline contexts as objects: legacy/pipelines/contexts/part_results.py 34-147 and
    legacy/pipelines/contexts/keys.py 1-13, accessors.py 7-52. *)
From Verif Require Import Py LogModel HeapModel.

(** legacy/pipelines/contexts/keys.py 1. *)
Definition log_key := str "log".
(** legacy/pipelines/contexts/keys.py 2. *)
Definition activities_key := str "activities".
(** legacy/pipelines/contexts/keys.py 3. *)
Definition repeat_sets_key := str "repeat_sets".
(** legacy/pipelines/contexts/keys.py 4. *)
Definition traces_activities_key := str "traces_activities".
(** legacy/pipelines/contexts/keys.py 5. *)
Definition patterns_key := str "patterns".
(** legacy/pipelines/contexts/keys.py 6. *)
Definition petri_net_key := str "petri_net".
(** legacy/pipelines/contexts/keys.py 7. *)
Definition event_class_tree_key := str "event_class_tree".
(** legacy/pipelines/contexts/keys.py 8. *)
Definition activities_to_logs_key := str "activities_logs".
(** legacy/pipelines/contexts/keys.py 9. *)
Definition activity_name_key := str "activity_name_key".
(** legacy/pipelines/contexts/keys.py 10. *)
Definition cached_colors_key := str "cached_colors".
(** legacy/pipelines/contexts/keys.py 12. *)
Definition serialized_graph_key := str "serialized_graph".
(** legacy/pipelines/contexts/keys.py 13. *)
Definition graph_key := str "graph".

(** PipelinePartResult(), part_results.py 35-36. *)
Definition new_ctx : H hv := hbind (alloc (OCtx [])) (fun l => ret (HRef l)).

(** self.values; anything but a PipelinePartResult has no such attribute.  legacy/pipelines/contexts/part_results.py 34-36. *)
Definition ctx_values (c : hv) : H (dict pystr hv) :=
  hbind (deref c) (fun o => match o with OCtx d => ret d | _ => fail AttributeError end).
(** legacy/pipelines/contexts/part_results.py 39. *)
Definition ctx_poke (c : hv) (d : dict pystr hv) : H unit :=
  match c with HRef l => poke l (OCtx d) | HAtom _ => fail AttributeError end.

(** self.values[key] = v; return self: with_log, with_activities, ..., with_custom_data,
    part_results.py 38-89, which differ in the key only. *)
Definition with_value (key : pystr) (v c : hv) : H hv :=
  hbind (ctx_values c) (fun d => hbind (ctx_poke c (dset str_eq_dec d key v)) (fun _ => ret c)).

(** has_value, part_results.py 91-92. *)
Definition has_value (key : pystr) (c : hv) : H bool := hbind (ctx_values c) (fun d => ret (dmem str_eq_dec d key)).

(** get_value_or_throw, part_results.py 94-98; also __log__, __activities__, ..., 103-134. *)
Definition get_value_or_throw (key : pystr) (c : hv) : H hv :=
  hbind (has_value key c) (fun b =>
  if b then hbind (ctx_values c) (fun d => match dget str_eq_dec d key with Some v => ret v | None => fail KeyError end)
  else fail ValueError).

(** remove, part_results.py 100-101. *)
Definition ctx_remove (key : pystr) (c : hv) : H unit :=
  hbind (ctx_values c) (fun d => if dmem str_eq_dec d key then ctx_poke c (ddel str_eq_dec d key) else fail KeyError).

(** __cached_colors__, part_results.py 135-139. *)
Definition cached_colors (c : hv) : H hv :=
  hbind (ctx_values c) (fun d =>
  hbind (if dmem str_eq_dec d cached_colors_key then ret tt
         else hbind (alloc (ODict [])) (fun l => ctx_poke c (dset str_eq_dec d cached_colors_key (HRef l)))) (fun _ =>
  get_value_or_throw cached_colors_key c)).

(** accessors.py 7-8 log(obj). *)
Definition ctx_log : hv -> H hv := get_value_or_throw log_key.

(** A program over contexts: the operations it performs, contexts numbered in order of creation.  legacy/pipelines/contexts/part_results.py 34-147. *)
Inductive ctx_op :=
| OpNew
| OpWith (i : nat) (key : pystr) (v : hv)
| OpGet (i : nat) (key : pystr)
| OpHas (i : nat) (key : pystr)
| OpRemove (i : nat) (key : pystr)
| OpColors (i : nat)
| OpCopy (i : nat)
| OpDeepCopy (i : nat).

(** What an operation gives its caller: legacy/pipelines/contexts/part_results.py 38-147. *)
Inductive ctx_out := OutCtx (i : nat) | OutVal (v : hv) | OutBool (b : bool) | OutUnit | OutRaise (e : exc).

(** Running one operation; [env]: the contexts created so far.  legacy/pipelines/contexts/part_results.py 34-147. *)
Definition out_of {A} (f : A -> ctx_out) (r : result A) : ctx_out := match r with Ok a => f a | Err e => OutRaise e end.
(** legacy/pipelines/contexts/part_results.py 34-147. *)
Definition run_op (op : ctx_op) (s : heap * list hv) : heap * list hv * ctx_out :=
  let '(h, env) := s in
  let ctx i := nth i env (HAtom (VInt 0)) in
  let add (c : H hv) := let '(h', r) := c h in (h', match r with Ok v => env ++ [v] | Err _ => env end, out_of (fun _ => OutCtx (length env)) r) in
  let keep {A} (f : A -> ctx_out) (c : H A) := let '(h', r) := c h in (h', env, out_of f r) in
  match op with
  | OpNew => add new_ctx
  | OpWith i k v => keep (fun _ => OutCtx i) (with_value k v (ctx i))
  | OpGet i k => keep OutVal (get_value_or_throw k (ctx i))
  | OpHas i k => keep OutBool (has_value k (ctx i))
  | OpRemove i k => keep (fun _ => OutUnit) (ctx_remove k (ctx i))
  | OpColors i => keep OutVal (cached_colors (ctx i))
  | OpCopy i => add (shallow_copy (ctx i))
  | OpDeepCopy i => keep (fun _ => OutUnit) (deepcopy 1 [] (ctx i))
  end.
(** legacy/pipelines/contexts/part_results.py 34-147. *)
Fixpoint run_ops (ops : list ctx_op) (s : heap * list hv) : heap * list hv * list ctx_out :=
  match ops with
  | [] => (s, [])
  | op :: r => let '(s', o) := run_op op s in let '(s'', os) := run_ops r s' in (s'', o :: os)
  end.
