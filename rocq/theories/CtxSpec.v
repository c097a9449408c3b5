(** What a pipeline context is for its users: independent key/value stores. *)
From Verif Require Import Py LogModel HeapModel CtxModel.

Definition store := pystr -> option hv.
Definition empty_store : store := fun _ => None.
Definition put (s : store) (k : pystr) (v : option hv) : store := fun k' => if str_eq_dec k' k then v else s k'.
Definition set_nth {A} (l : list A) (i : nat) (a : A) : list A := firstn i l ++ a :: skipn (S i) l.

(** One operation on the stores created so far.  [fresh]: the objects the program has not seen. *)
Inductive spec_op (fresh : hv -> Prop) : list store -> ctx_op -> ctx_out -> list store -> Prop :=
| spec_new ss : spec_op fresh ss OpNew (OutCtx (length ss)) (ss ++ [empty_store])
| spec_with ss i s k v : nth_error ss i = Some s ->
    spec_op fresh ss (OpWith i k v) (OutCtx i) (set_nth ss i (put s k (Some v)))
| spec_get ss i s k v : nth_error ss i = Some s -> s k = Some v -> spec_op fresh ss (OpGet i k) (OutVal v) ss
| spec_get_missing ss i s k : nth_error ss i = Some s -> s k = None -> spec_op fresh ss (OpGet i k) (OutRaise ValueError) ss
| spec_has ss i s k : nth_error ss i = Some s ->
    spec_op fresh ss (OpHas i k) (OutBool (match s k with Some _ => true | None => false end)) ss
| spec_remove ss i s k v : nth_error ss i = Some s -> s k = Some v ->
    spec_op fresh ss (OpRemove i k) OutUnit (set_nth ss i (put s k None))
| spec_remove_missing ss i s k : nth_error ss i = Some s -> s k = None ->
    spec_op fresh ss (OpRemove i k) (OutRaise KeyError) ss
| spec_colors ss i s v : nth_error ss i = Some s -> s cached_colors_key = Some v -> spec_op fresh ss (OpColors i) (OutVal v) ss
| spec_colors_new ss i s v : nth_error ss i = Some s -> s cached_colors_key = None -> fresh v ->
    spec_op fresh ss (OpColors i) (OutVal v) (set_nth ss i (put s cached_colors_key (Some v)))
| spec_copy ss i s : nth_error ss i = Some s -> spec_op fresh ss (OpCopy i) (OutCtx (length ss)) (ss ++ [s])
| spec_deepcopy ss i s : nth_error ss i = Some s -> spec_op fresh ss (OpDeepCopy i) (OutRaise NotImplementedErr) ss.

(** [h0]: the heap before the program started, whose objects are not new. *)
Inductive spec_ops (old : hv -> Prop) : list store -> list ctx_op -> list ctx_out -> list store -> Prop :=
| spec_done ss : spec_ops old ss [] [] ss
| spec_more ss op o ss' ops os ss'' : spec_op (fun v => ~ old v) ss op o ss' ->
    spec_ops (fun v => old v \/ o = OutVal v) ss' ops os ss'' -> spec_ops old ss (op :: ops) (o :: os) ss''.

(** An operation of a program that uses only contexts it created ([n] of them so far). *)
Definition op_ok (n : nat) (op : ctx_op) : Prop :=
  match op with
  | OpNew => True
  | OpWith i _ _ | OpGet i _ | OpHas i _ | OpRemove i _ | OpColors i | OpCopy i | OpDeepCopy i => i < n
  end.
Definition creates (op : ctx_op) : nat := match op with OpNew | OpCopy _ => 1 | _ => 0 end.
Fixpoint ops_ok (n : nat) (ops : list ctx_op) : Prop :=
  match ops with [] => True | op :: r => op_ok n op /\ ops_ok (n + creates op) r end.
(** Values it stores exist already (below [n]). *)
Definition op_vals (n : nat) (op : ctx_op) : Prop := match op with OpWith _ _ (HRef l) => l < n | _ => True end.
