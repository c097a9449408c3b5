(** User data of the backend: src/rust/ficus_backend/src/utils/user_data/{keys,user_data}.rs.  Values behind Rc live in a heap and
    are never freed; a value has a type and contents.  References given out are not kept: reading copies, writing replaces.
    UserDataHolder, which makes its UserDataImpl when first asked for it, is not modelled. *)
From Verif Require Import Py ReplayModel.

(** DefaultKey<T>, utils/user_data/keys.rs 13-17. *)
Record ukey := mkKey { uk_name : pystr; uk_type : N; uk_id : N }.
(** DefaultKey::new, utils/user_data/keys.rs 46-54; the counter is one for all types and goes round at 2^64 (fetch_add). *)
Definition key_new (counter : N) (type : N) (name : pystr) : ukey * N := (mkKey name type counter, ((counter + 1) mod 2 ^ 64)%N).
(** clone of a key, utils/user_data/keys.rs 32-40. *)
Definition key_clone (k : ukey) : ukey := mkKey (uk_name k) (uk_type k) (uk_id k).
(** eq of keys, utils/user_data/keys.rs 57-61. *)
Definition key_eq (a b : ukey) : bool := (uk_id a =? uk_id b)%N.
(** What a program does with keys; the lists hold the keys it has. *)
Inductive key_op := KNew (type : N) (name : pystr) | KClone (which : nat).
(** Some calls of new and clone, utils/user_data/keys.rs 32-54; a key which is not there cannot be cloned (nothing happens). *)
Fixpoint keys_run (ops : list key_op) (counter : N) (keys : list ukey) : list ukey * N :=
  match ops with
  | [] => (keys, counter)
  | KNew type name :: ops => let (k, counter) := key_new counter type name in keys_run ops counter (keys ++ [k])
  | KClone i :: ops => keys_run ops counter (match nth_error keys i with Some k => keys ++ [key_clone k] | None => keys end)
  end.

(** A value of any type, dyn Any, utils/user_data/user_data.rs 7. *)
Record uval := mkVal { v_type : N; v_data : Z }.
(** UserDataImpl, utils/user_data/user_data.rs 6-8; the numbers are places in the heap. *)
Definition udata := option (dict N nat).
(** All values behind Rc<RefCell<..>> and all user data of a program, utils/user_data/user_data.rs 7. *)
Record ustate := mkU { u_heap : list uval; u_datas : list udata }.

(** Some user data of the program; Rust allows no other. *)
Definition data_at (s : ustate) (d : nat) : result udata := match nth_error (u_datas s) d with Some x => Ok x | None => Err IndexError end.
(** initialize_values_map, utils/user_data/user_data.rs 83-89. *)
Definition ud_initialize (x : udata) : dict N nat := match x with Some map => map | None => [] end.
(** len, utils/user_data/user_data.rs 25-31. *)
Definition ud_len (x : udata) : nat := match x with Some map => length map | None => 0 end.
(** The place of the value of a key, utils/user_data/user_data.rs 49-54, 107-112. *)
Definition ud_place (x : udata) (k : ukey) : option nat := match x with Some map => dget N.eq_dec map (uk_id k) | None => None end.
(** Replacing an element of a list. *)
Definition put_nth {A} (l : list A) (i : nat) (x : A) : list A := firstn i l ++ x :: skipn (S i) l.
(** put_concrete and put_any, utils/user_data/user_data.rs 33-42. *)
Definition ud_put (s : ustate) (d : nat) (k : ukey) (v : uval) : result ustate :=
  bind (data_at s d) (fun x =>
  Ok (mkU (u_heap s ++ [v]) (put_nth (u_datas s) d (Some (dset N.eq_dec (ud_initialize x) (uk_id k) (length (u_heap s))))))).
(** any, utils/user_data/user_data.rs 48-59. *)
Definition ud_any (s : ustate) (d : nat) (k : ukey) : result (option uval) :=
  bind (data_at s d) (fun x =>
  match ud_place x k with
  | None => Ok None
  | Some place => match nth_error (u_heap s) place with Some v => Ok (Some v) | None => Err IndexError end
  end).
(** get and concrete, utils/user_data/user_data.rs 44-46, 99-104; a value of another type is a panic. *)
Definition ud_get (s : ustate) (d : nat) (k : ukey) (type : N) : result (option uval) :=
  bind (ud_any s d k) (fun r =>
  match r with
  | None => Ok None
  | Some v => if (v_type v =? type)%N then Ok (Some v) else rpanic
  end).
(** Writing through the reference of get_mut and concrete_mut, utils/user_data/user_data.rs 61-63, 106-117. *)
Definition ud_write (s : ustate) (d : nat) (k : ukey) (v : uval) : result ustate :=
  bind (data_at s d) (fun x =>
  match ud_place x k with
  | None => Ok s
  | Some place =>
      match nth_error (u_heap s) place with
      | Some old => if (v_type old =? v_type v)%N then Ok (mkU (put_nth (u_heap s) place v) (u_datas s)) else rpanic
      | None => Err IndexError
      end
  end).
(** remove, remove_concrete and remove_any, utils/user_data/user_data.rs 65-75, 91-97. *)
Definition ud_remove (s : ustate) (d : nat) (k : ukey) : result ustate :=
  bind (data_at s d) (fun x =>
  Ok (mkU (u_heap s) (put_nth (u_datas s) d (match x with Some map => Some (ddel N.eq_dec map (uk_id k)) | None => None end)))).
(** new, utils/user_data/user_data.rs 79-81. *)
Definition ud_new (s : ustate) : ustate := mkU (u_heap s) (u_datas s ++ [None]).
(** clone, utils/user_data/user_data.rs 120-134: a new map with the same places. *)
Definition ud_clone (s : ustate) (d : nat) : result ustate :=
  bind (data_at s d) (fun x =>
  Ok (mkU (u_heap s) (u_datas s ++ [match x with
                                    | None => None
                                    | Some map => Some (fold_left (fun new_map e => dset N.eq_dec new_map (fst e) (snd e)) map [])
                                    end]))).

(** What a program does with user data, utils/user_data/user_data.rs 12-164. *)
Inductive ud_op :=
| DNew
| DClone (d : nat)
| DPut (d : nat) (k : ukey) (v : uval)
| DGet (d : nat) (k : ukey) (type : N)
| DWrite (d : nat) (k : ukey) (v : uval)
| DRemove (d : nat) (k : ukey).
(** utils/user_data/user_data.rs 12-164. *)
Definition ud_step (s : ustate) (op : ud_op) : result ustate :=
  match op with
  | DNew => Ok (ud_new s)
  | DClone d => ud_clone s d
  | DPut d k v => ud_put s d k v
  | DGet d k type => bind (ud_get s d k type) (fun _ => Ok s)
  | DWrite d k v => ud_write s d k v
  | DRemove d k => ud_remove s d k
  end.
(** A program, utils/user_data/user_data.rs 12-164. *)
Definition ud_run (ops : list ud_op) : result ustate := loopM ud_step ops (mkU [] []).
