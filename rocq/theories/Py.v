(** Python data used by all models: strings, results, insertion ordered dicts.
    Definitions only; lemmas are in PyFacts.v. *)
From Coq Require Export Ascii String.
From Coq Require Export List Arith NArith ZArith Bool Lia.
Export ListNotations.

(** A Python [str] is the list of its code points ([ord] of each character). *)
Definition pystr := list N.

(** Literal helper: the code points of an ASCII literal. *)
Fixpoint str (s : string) : pystr :=
  match s with
  | EmptyString => []
  | String c s' => N_of_ascii c :: str s'
  end.

Arguments str s%string.

Definition str_eq_dec : forall a b : pystr, {a = b} + {a <> b} :=
  list_eq_dec N.eq_dec.

(** [a == b] on str. *)
Definition str_eqb (a b : pystr) : bool := if str_eq_dec a b then true else false.

(** Exceptions as values.  The constructor names the Python exception class; [Diverges] is not an
    exception but a loop that has used up its fuel (theorems show that it does not happen). *)
Inductive exc := KeyError | IndexError | ValueError | TypeError | OverflowError
               | AttributeError | NotImplementedErr | ZeroDivisionError | StopIterationErr | AssertionErr | UserError
               | Diverges.

Inductive result (A : Type) : Type :=
| Ok (a : A)
| Err (e : exc).
Arguments Ok {A} a.
Arguments Err {A} e.

Definition bind {A B} (r : result A) (f : A -> result B) : result B :=
  match r with Ok a => f a | Err e => Err e end.

(** Evaluating [f] on the elements left to right, stopping at the first exception
    (a list comprehension or an appending for loop). *)
Fixpoint mapM {A B} (f : A -> result B) (l : list A) : result (list B) :=
  match l with
  | [] => Ok []
  | x :: xs => bind (f x) (fun y => bind (mapM f xs) (fun ys => Ok (y :: ys)))
  end.

(** Filtering loop whose test may raise. *)
Fixpoint filterM {A} (f : A -> result bool) (l : list A) : result (list A) :=
  match l with
  | [] => Ok []
  | x :: xs => bind (f x) (fun b => bind (filterM f xs)
                 (fun ys => Ok (if b then x :: ys else ys)))
  end.

(** for loop threading a state, stopping at the first exception. *)
Definition loopM {A S} (f : S -> A -> result S) : list A -> S -> result S :=
  fix go l s := match l with [] => Ok s | x :: xs => bind (f s x) (go xs) end.

(** Python dict: insertion ordered association list.  Invariant (see PyFacts): keys unique. *)
Section Dict.
  Context {K V : Type}.
  Variable eqd : forall a b : K, {a = b} + {a <> b}.

  Definition dict := list (K * V).

  (** [d.get(k)] *)
  Fixpoint dget (d : dict) (k : K) : option V :=
    match d with
    | [] => None
    | (k', v) :: d' => if eqd k k' then Some v else dget d' k
    end.

  (** [k in d] *)
  Definition dmem (d : dict) (k : K) : bool :=
    match dget d k with Some _ => true | None => false end.

  (** [d[k]]: KeyError when missing. *)
  Definition dgetitem (d : dict) (k : K) : result V :=
    match dget d k with Some v => Ok v | None => Err KeyError end.

  (** [d[k] = v]: keeps the position of an existing key, appends a new one. *)
  Fixpoint dset (d : dict) (k : K) (v : V) : dict :=
    match d with
    | [] => [(k, v)]
    | (k', v') :: d' => if eqd k k' then (k', v) :: d' else (k', v') :: dset d' k v
    end.

  (** [del d[k]] for a key that is present (no-op otherwise; callers guard). *)
  Fixpoint ddel (d : dict) (k : K) : dict :=
    match d with
    | [] => []
    | (k', v') :: d' => if eqd k k' then d' else (k', v') :: ddel d' k
    end.

  Definition dkeys (d : dict) : list K := map fst d.
  Definition dvalues (d : dict) : list V := map snd d.
End Dict.
Arguments dict K V : clear implicits.

(** [d[k].append(v)] if present else [d[k] = [v]]: the grouping idiom. *)
Definition dpush {K V} (eqd : forall a b : K, {a = b} + {a <> b})
  (d : dict K (list V)) (k : K) (v : V) : dict K (list V) :=
  match dget eqd d k with
  | Some l => dset eqd d k (l ++ [v])
  | None => dset eqd d k [v]
  end.

(** legacy/util.py 127-129 increase_in_int_map. *)
Definition increase_in_int_map {K} (eqd : forall a b : K, {a = b} + {a <> b})
  (d : dict K nat) (k : K) : dict K nat :=
  let value := match dget eqd d k with Some v => v | None => 0 end in
  dset eqd d k (value + 1).

(** Names of legacy/util.py 8-13. *)
Definition concept_name : pystr := str "concept:name".
Definition time_timestamp : pystr := str "time:timestamp".
Definition lifecycle_transition : pystr := str "lifecycle:transition".
Definition fake_start_name : pystr := str "FAKE_START".
Definition fake_end_name : pystr := str "FAKE_END".
