(** Vocabulary for C75: what users of the service see, in terms of the calls made and their answers. *)
From Verif Require Import Py WireModel BackendModel SvcModel.

(** The requests of a history, in order: the i-th one starts execution i. *)
Definition requests (h : list act) : list grequest :=
  flat_map (fun a => match a with Request rq => [rq] | _ => [] end) h.

(** The steps of execution [i] and of its client. *)
Definition concerns (i : nat) (a : act) : bool :=
  match a with Work j | Receive j | Close j => i =? j | _ => false end.

(** What the client of execution [i] has received, read off the answers. *)
Fixpoint received (i : nat) (h : list act) (answers : list answer) : list gmessage :=
  match h, answers with
  | Receive j :: h', AMessage m :: answers' => if i =? j then m :: received i h' answers' else received i h' answers'
  | _ :: h', _ :: answers' => received i h' answers'
  | _, _ => []
  end.

(** Execution [i] is over: no step of it is left. *)
Definition over (s : service) (i : nat) : Prop :=
  exists c, nth_error (sv_conns s) i = Some c /\ c_phase c = Ended.

(** [a] comes at the start of [b]. *)
Definition starts {A} (a b : list A) : Prop := exists rest, b = a ++ rest.

(** What a caller is told about the value of a key in a context. *)
Definition told (ctx : option userdata) (key : pystr) (r : got) : Prop :=
  match r with
  | GotValue g => In key (map fst backend_keys) /\ exists c v, ctx = Some c /\ dget str_eq_dec c key = Some v /\ value_grpc key v = Some g
  | GotError m =>
      (~ In key (map fst backend_keys) /\ m = str "Failed to find key for key name") \/
      (In key (map fst backend_keys) /\ ctx = None /\ m = str "Failed to get context for guid") \/
      (In key (map fst backend_keys) /\ exists c, ctx = Some c /\ dget str_eq_dec c key = None /\ m = str "Failed to find context value for key") \/
      (In key (map fst backend_keys) /\ exists c v, ctx = Some c /\ dget str_eq_dec c key = Some v /\ value_grpc key v = None /\
         m = str "Can not convert context value to grpc model")
  end.
