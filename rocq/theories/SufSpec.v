(** What it means that a word is in a text and repeats there. *)
From Coq Require Import Sorting.Sorted.
From Verif Require Import Py SufModel.

(** The word [a] is in [w] at position [i]. *)
Definition occurs {A} (w a : list A) (i : nat) : Prop := exists l r, w = l ++ a ++ r /\ length l = i.
(** The element before position [i] and the one after the word [a] at position [i]; none at the ends. *)
Definition before {A} (w : list A) (i : nat) : option A := match i with 0 => None | S j => nth_error w j end.
Definition after {A} (w a : list A) (i : nat) : option A := nth_error w (i + length a).

(** Words with the positions [O], what is before and what is after them. *)
Section Contexts.
  Context {A : Type}.
  Variables (O : nat -> Prop) (lf rf : nat -> option A).

  (** Two elements after the word tell apart what is before it: some position has an element before it which no position
      with another, occurring element after it has; being at the very start counts as such an element too. *)
  Definition diverse : Prop :=
    exists s t, O s /\ O t /\ rf t <> rf s /\ (lf s = None \/ forall u, O u -> rf u = rf t -> lf u <> lf s).
  (** No other position has the same element before, or the same one after. *)
  Definition alone (s : nat) : Prop := forall t, O t -> t <> s -> rf t <> rf s /\ lf t <> lf s.
  Definition repeated : Prop := exists s t, O s /\ O t /\ s <> t.
  (** What each kind of repeats asks of a word. *)
  Definition reported (ty : repeat_type) : Prop :=
    match ty with
    | MaximalRepeat => diverse
    | SuperMaximalRepeat => repeated /\ forall s t, O s -> O t -> s <> t -> rf s <> rf t /\ (lf s <> lf t \/ lf s = None)
    | NearSuperMaximalRepeat => diverse /\ exists s, O s /\ lf s <> None /\ alone s
    end.
End Contexts.

(** Pairs in order. *)
Definition pair_le (a b : nat * nat) : Prop := fst a < fst b \/ (fst a = fst b /\ snd a <= snd b).
(** The pairs of a start and a length name the words of [w] with [P], each of them once, in order. *)
Definition names_words (P : list N -> Prop) (w : list N) (l : list (nat * nat)) : Prop :=
  StronglySorted pair_le l /\ NoDup l /\
  (forall x, In x l -> exists a, a <> [] /\ occurs w a (fst x) /\ snd x = length a /\ P a) /\
  (forall a, a <> [] -> P a -> exists x, In x l /\ occurs w a (fst x) /\ snd x = length a) /\
  (forall a x y, In x l -> In y l -> occurs w a (fst x) -> occurs w a (fst y) -> snd x = length a -> snd y = length a -> x = y).

(** The textbook notions. *)
Definition repeats {A} (w a : list A) : Prop := exists i j, occurs w a i /\ occurs w a j /\ i <> j.
(** Two positions at which the word cannot be made longer on either side. *)
Definition maximal_repeat {A} (w a : list A) : Prop :=
  exists i j, occurs w a i /\ occurs w a j /\ i <> j /\ before w i <> before w j /\ after w a i <> after w a j.
(** Repeats and is part of no longer word which repeats. *)
Definition super_maximal_repeat {A} (w a : list A) : Prop :=
  repeats w a /\ forall b, (exists l r, b = l ++ a ++ r) -> length a < length b -> ~ repeats w b.
(** A position of the word which lies in no position of a longer word which repeats. *)
Definition free_at {A} (w a : list A) (i : nat) : Prop :=
  forall b j, length a < length b -> repeats w b -> occurs w b j -> ~ (j <= i /\ i + length a <= j + length b).
Definition near_super_maximal_repeat {A} (w a : list A) : Prop := maximal_repeat w a /\ exists i, occurs w a i /\ free_at w a i.

(** The merged text of a log: the traces with a separator after each. *)
Definition merged (log : list (list N)) : list (option N) := flat_map (fun w => map Some w ++ [None]) log.
(** Where a trace begins in it. *)
Definition offset (log : list (list N)) (t : nat) : nat := length (merged (firstn t log)).
(** Every position from [k] on begins a word, up to the end of the text, which begins before too; no smaller number has this. *)
Definition tail_at {A} (T : list A) (k : nat) : Prop :=
  k <= length T /\ (k = length T \/ exists s, s < k /\ occurs T (skipn k T) s) /\
  forall j, j < k -> forall s, s < j -> ~ occurs T (skipn j T) s.
(** The elements of a text with separators around the word [a] at a position. *)
Definition left_of (T : list (option N)) (s : nat) : option N := match s with 0 => None | S j => nth j T None end.
Definition right_of (T : list (option N)) (a : list N) (s : nat) : option N := nth (s + length a) T None.
