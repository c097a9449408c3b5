(** Vocabulary for instances of activities in a trace. *)
From Verif Require Import Py HashModel PatternSpec TreeModel TreeSpec ActModel.

Section Spec.
  Context {D : Type}.
  Variable name : D -> pystr.

  (** Lexicographic order: size, then name. *)
  Definition smaller (a b : anode D) : Prop :=
    length (an_set a) < length (an_set b) \/
    (length (an_set a) = length (an_set b) /\ str_leb (name (an_data a)) (name (an_data b)) = true).

  (** [a] is the smallest of [l] covering [s], the first such in the list. *)
  Definition best (l : list (anode D)) (s : list N) (a : anode D) : Prop :=
    exists pre post, l = pre ++ a :: post /\ included s (an_set a) /\
      (forall b, In b pre -> included s (an_set b) -> smaller a b /\ ~ smaller b a) /\
      (forall b, In b post -> included s (an_set b) -> smaller a b).

  Definition coverable (l : list (anode D)) (s : list N) : Prop := exists a, In a l /\ included s (an_set a).

  (** The greedy segmentation of a trace from position [i] on: unattachable events are skipped, an
      instance starts at the first attachable event and is as long as possible. *)
  Inductive segments (l : list (anode D)) (trace : list N) : nat -> list (instance D) -> Prop :=
  | seg_done i : (forall j h, i <= j -> nth_error trace j = Some h -> ~ coverable l [h]) -> segments l trace i []
  | seg_next i s len a rest :
      i <= s -> (forall j h, i <= j < s -> nth_error trace j = Some h -> ~ coverable l [h]) ->
      0 < len -> s + len <= length trace ->
      best l (piece trace s len) a ->
      (s + len < length trace -> ~ coverable l (piece trace s (len + 1))) ->
      segments l trace (s + len) rest ->
      segments l trace i (mkInst a s len :: rest).

  (** Descendants (strict). *)
  Inductive below : anode D -> anode D -> Prop :=
  | below_child a b : child_of b a -> below b a
  | below_step a b c : below c b -> child_of b a -> below c a.

  (** [b] is reached from [a] going down through activities whose sets contain all of [s]. *)
  Inductive chain (s : list N) : anode D -> anode D -> Prop :=
  | chain_child a b : child_of b a -> included s (an_set b) -> chain s b a
  | chain_step a b c : chain s c b -> child_of b a -> included s (an_set b) -> chain s c a.

  (** Narrowing [a] to the classes [s]: [a] itself when no child contains them, else a smallest
      activity reached. *)
  Definition narrowed (s : list N) (a r : anode D) : Prop :=
    (r = a /\ forall b, child_of b a -> ~ included s (an_set b)) \/
    (chain s r a /\ forall b, chain s b a -> length (an_set r) <= length (an_set b)).

  Definition in_end (x : instance D) : nat := in_start x + in_length x.

  (** What is reported for a segment. *)
  Definition reported (narrow : bool) (trace : list N) (x y : instance D) : Prop :=
    in_start y = in_start x /\ in_length y = in_length x /\
    if narrow then narrowed (piece trace (in_start x) (in_length x)) (in_node x) (in_node y) else in_node y = in_node x.

  (** Instances one after the other, non-empty, inside [lo, hi). *)
  Fixpoint ordered (lo hi : nat) (l : list (instance D)) : Prop :=
    match l with
    | [] => lo <= hi
    | x :: r => lo <= in_start x /\ 0 < in_length x /\ ordered (in_end x) hi r
    end.

  (** Position [j] belongs to an instance. *)
  Definition covered (l : list (instance D)) (j : nat) : Prop := exists x, In x l /\ in_start x <= j < in_end x.

  (** In the subtree of [a] every child is included in its parent. *)
  Definition inclusion_tree (a : anode D) : Prop :=
    forall b c, b = a \/ below b a -> child_of c b -> included (an_set c) (an_set b).
End Spec.
