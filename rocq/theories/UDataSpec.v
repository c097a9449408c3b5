(** What user data holds, told from what was done, the last first. *)
From Verif Require Import Py UDataModel.

(** How many user data there are. *)
Fixpoint datas (h : list ud_op) : nat :=
  match h with [] => 0 | (DNew | DClone _) :: h => S (datas h) | _ :: h => datas h end.
(** How many values were put. *)
Fixpoint puts (h : list ud_op) : nat :=
  match h with [] => 0 | DPut _ _ _ :: h => S (puts h) | _ :: h => puts h end.
(** Which put the value of the key with this id comes from. *)
Fixpoint origin (h : list ud_op) (d : nat) (id : N) : option nat :=
  match h with
  | [] => None
  | DNew :: h => if d =? datas h then None else origin h d id
  | DClone c :: h => if d =? datas h then origin h c id else origin h d id
  | DPut d0 k _ :: h => if (d =? d0) && (id =? uk_id k)%N then Some (puts h) else origin h d id
  | DRemove d0 k :: h => if (d =? d0) && (id =? uk_id k)%N then None else origin h d id
  | (DGet _ _ _ | DWrite _ _ _) :: h => origin h d id
  end.
(** What became of the value of a put. *)
Fixpoint value_of (h : list ud_op) (p : nat) : option uval :=
  match h with
  | [] => None
  | DPut _ _ v :: h => if p =? puts h then Some v else value_of h p
  | DWrite d k v :: h => match origin h d (uk_id k) with
                         | Some q => if p =? q then Some v else value_of h p
                         | None => value_of h p
                         end
  | _ :: h => value_of h p
  end.
(** The value of a key. *)
Definition look (h : list ud_op) (d : nat) (k : ukey) : option uval :=
  match origin h d (uk_id k) with Some p => value_of h p | None => None end.
(** The operations use user data that are there. *)
Fixpoint exists_data (h : list ud_op) : Prop :=
  match h with
  | [] => True
  | op :: h => match op with DNew => True | DClone d | DPut d _ _ | DGet d _ _ | DWrite d _ _ | DRemove d _ => d < datas h end /\ exists_data h
  end.
(** No value is read or written as one of another type. *)
Fixpoint right_types (h : list ud_op) : Prop :=
  match h with
  | [] => True
  | op :: h => match op with
               | DGet d k type => forall v, look h d k = Some v -> v_type v = type
               | DWrite d k new => forall v, look h d k = Some v -> v_type v = v_type new
               | _ => True
               end /\ right_types h
  end.
(** The key of an operation, with the type it is used with. *)
Definition op_key (op : ud_op) : option (ukey * N) :=
  match op with
  | DNew | DClone _ | DRemove _ _ => None
  | DPut _ k v | DWrite _ k v => Some (k, v_type v)
  | DGet _ k type => Some (k, type)
  end.
(** Only the functions for keys of a type are used: values have the type of the key. *)
Definition concrete_only (h : list ud_op) (keys : list ukey) : Prop :=
  forall op k type, In op h -> op_key op = Some (k, type) -> In k keys /\ uk_type k = type.
(** How often new was called for keys. *)
Definition news (ops : list key_op) : nat := length (filter (fun o => match o with KNew _ _ => true | KClone _ => false end) ops).
(** For each key of a program, the number of the call of new it comes from. *)
Fixpoint sources (ops : list key_op) (n : nat) (acc : list nat) : list nat :=
  match ops with
  | [] => acc
  | KNew _ _ :: ops => sources ops (S n) (acc ++ [n])
  | KClone i :: ops => sources ops n (match nth_error acc i with Some m => acc ++ [m] | None => acc end)
  end.
