(** What filters, variants and changes of events in the backend are meant to do, without the functions of the model. *)
From Coq Require Import Sorting.Sorted Permutation.
From Verif Require Import Py.

(** Any order of the entries of hash tables, for each table an order of its own. *)
Definition any_orders (ord : list nat -> forall B : Type, list B -> list B) : Prop :=
  forall place B (l : list B), Permutation (ord place B l) l.

(** A log without the events which satisfy [p] and then without traces which have no events. *)
Definition without {A} (p : A -> bool) (log : list (list A)) : list (list A) :=
  filter (fun t => match t with [] => false | _ => true end) (map (filter (fun e => negb (p e))) log).

(** The elements whose key no earlier element has, in their order. *)
Fixpoint first_of_each {A K} (eqd : forall a b : K, {a = b} + {a <> b}) (key : A -> K) (seen : list K) (l : list A) : list A :=
  match l with
  | [] => []
  | x :: r => if in_dec eqd (key x) seen then first_of_each eqd key seen r
              else x :: first_of_each eqd key (key x :: seen) r
  end.

(** Groups of places of a list: each place is in one group, two places are in the same one iff their elements have the same
    key, each group is increasing and the groups are ordered by their first places. *)
Record grouping {A K} (key : A -> K) (l : list A) (groups : list (list nat)) : Prop := {
  gr_places : Permutation (concat groups) (seq 0 (length l));
  gr_same : forall i j x y, nth_error l i = Some x -> nth_error l j = Some y ->
              ((exists g, In g groups /\ In i g /\ In j g) <-> key x = key y);
  gr_increasing : forall g, In g groups -> g <> [] /\ StronglySorted lt g;
  gr_ordered : StronglySorted (fun g h => hd 0 g < hd 0 h) groups }.

(** How often a name occurs and where. *)
Definition occurrences (names : list pystr) (n : pystr) : nat := count_occ str_eq_dec names n.
Definition is_place_of (names : list pystr) (n : pystr) (i : nat) : Prop := nth_error names i = Some n.
