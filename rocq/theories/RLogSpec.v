(** Vocabulary for C70: logs made of activity instances. *)
From Verif Require Import Py PatternModel PatternSpec TreeModel TreeSpec ActModel ActSpec RActModel RActSpec RLogModel.

Section Place.
  Context {A D : Type}.
  Variables (strat : strategy A) (make : instance D -> A) (trace : list (revent A)) (l : list (instance D)).

  (** Whether position [j] belongs to an instance ([covered]). *)
  Definition inside (j : nat) : bool := existsb (fun x => (in_start x <=? j) && (j <? in_end x)) l.
  (** The instance that starts at [j]. *)
  Definition starts_here (j : nat) : option (instance D) := find (fun x => in_start x =? j) l.
  (** The event at position [j]. *)
  Definition event_of (j : nat) : list (revent A) := match nth_error trace j with Some e => [e] | None => [] end.
  (** What becomes of position [j]: an instance turns into one event at its start; outside of instances the event stays, or
      each maximal stretch turns into one event, or nothing is left. *)
  Definition place (j : nat) : list (revent A) :=
    match starts_here j with
    | Some x => [REvent (make x) (Some (piece trace (in_start x) (in_length x)))]
    | None => if inside j then [] else
        match strat with
        | InsertAll => event_of j
        | InsertSingle a => if (j =? 0) || inside (j - 1) then [REvent a None] else []
        | DontInsert => []
        end
    end.
End Place.

(** The events at the bottom, from left to right. *)
Inductive leaves {A} : list (revent A) -> list (revent A) -> Prop :=
| lv_nil : leaves [] []
| lv_leaf a r l : leaves r l -> leaves (REvent a None :: r) (REvent a None :: l)
| lv_node a es r l1 l2 : leaves es l1 -> leaves r l2 -> leaves (REvent a (Some es) :: r) (l1 ++ l2).

(** Instances in order for every trace of a log, as C69 finds them. *)
Definition in_order {A D} (acts : list (list (instance D))) (log : list (list A)) : Prop :=
  Forall2 (fun l trace => ordered 0 (length trace) l) acts log.

(** The number of events in all traces. *)
Definition total_length {A} (log : list (list A)) : nat := list_sum (map (@length A) log).

(** Logs that rounds of turning instances into events lead to. *)
Inductive rounds {A D : Type} (make : instance D -> A) : list (list (revent A)) -> list (list (revent A)) -> Prop :=
| rounds_none log : rounds make log log
| rounds_more log acts new later : in_order acts log -> new_log InsertAll make log acts = Ok new -> rounds make new later -> rounds make log later.

(** The events with events below, of a given name, in the order of the log. *)
Definition groups_named {A} (name_of : A -> pystr) (n : pystr) (log : list (list (revent A))) : list (list (revent A)) :=
  flat_map (fun e => match ev_under e with Some es => if str_eq_dec (name_of (ev_about e)) n then [es] else [] | None => [] end) (concat log).
(** The events of the instances of a level and name, in the order of the log. *)
Definition stretches_named {A D} (level_of : D -> nat) (node_name : D -> pystr) (level : nat) (n : pystr) (acts : list (list (instance D))) (log : list (list (revent A))) : list (list (revent A)) :=
  flat_map (fun p => flat_map (fun x => if (level_of (an_data (in_node x)) =? level) then if str_eq_dec (node_name (an_data (in_node x))) n then [piece (snd p) (in_start x) (in_length x)] else [] else []) (fst p)) (combine acts log).
(** The entry of a dictionary for a name: no entry without a trace. *)
Definition entry {B} (d : dict pystr (list B)) (n : pystr) (ts : list B) : Prop :=
  match ts with [] => dget str_eq_dec d n = None | _ => dget str_eq_dec d n = Some ts end.

(** The text with brackets and colons. *)
Fixpoint bracketed (parts : list pystr) : pystr :=
  match parts with
  | [] => []
  | [p] => str "(" ++ p ++ str ")"
  | p :: r => str "(" ++ p ++ str ")::" ++ bracketed r
  end.
(** Closing bracket. *)
Definition closing : N := 41%N.
(** The part of a name which is shown: what is found at its beginning, or all of it. *)
Definition shown_part (extract : option (pystr -> option (nat * nat))) (name part : pystr) : Prop :=
  (exists find e, extract = Some find /\ find name = Some (0, e) /\ part = firstn e name) \/
  ((forall find e, extract = Some find -> find name <> Some (0, e)) /\ part = name).
