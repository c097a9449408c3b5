(** What the relations and the tuples of the alpha sharp algorithm are meant to say, in terms of the log. *)
From Coq Require Import Sorted.
From Verif Require Import Py InfoSpec RInfoSpec AlphaSpec PlusSpec.

Section Rel.
  Variable log : list (list pystr).
  (** Directly after each other somewhere; before; beside. *)
  Definition sh_next (a b : pystr) : Prop := follows log None a b.
  Definition sh_around (a b : pystr) : Prop := triangle log a b /\ triangle log b a.
  Definition sh_before (a b : pystr) : Prop := sh_next a b /\ (~ sh_next b a \/ sh_around a b).
  Definition sh_beside (a b : pystr) : Prop := sh_next a b /\ sh_next b a /\ ~ sh_around a b.
  (** Something may be hidden between two names: each of them has another neighbour, and these do not come after each other. *)
  Definition hidden (a b : pystr) : Prop := sh_before a b /\
    exists x y, sh_before a x /\ sh_before y b /\ ~ sh_next y x /\ ~ sh_beside x b /\ ~ sh_beside a y.
  (** It is known from two other pairs. *)
  Definition spare (a b : pystr) : Prop := exists c d, c <> a /\ d <> b /\ sh_before c d /\ hidden a d /\ hidden c b.
  Definition needed (a b : pystr) : Prop := hidden a b /\ ~ spare a b.
  (** Two lists of pairs which fit. *)
  Definition sharp_fits (I O : list (pystr * pystr)) : Prop :=
    (forall a x y b, In (a, x) I -> In (y, b) O -> hidden a b /\ ~ sh_beside x y) /\
    (forall a x a' x', In (a, x) I -> In (a', x') I -> (a, x) <> (a', x') -> sh_beside a a') /\
    (forall y b y' b', In (y, b) O -> In (y', b') O -> (y, b) <> (y', b') -> sh_beside b b').
  (** Names of the log. *)
  Definition of_log (l : list (pystr * pystr)) : Prop := forall a b, In (a, b) l -> (exists t, In t log /\ In a t) /\ exists t, In t log /\ In b t.
End Rel.
(** Each pair has the same name twice. *)
Definition doubled (l : list (pystr * pystr)) : Prop := forall a b, In (a, b) l -> a = b.
(** Pairs in ascending order, by the first and then by the second name. *)
Definition plt (x y : pystr * pystr) : Prop := slt (fst x) (fst y) \/ (fst x = fst y /\ slt (snd x) (snd y)).
Definition psorted (l : list (pystr * pystr)) : Prop := StronglySorted plt l.
(** The names of pairs one after the other; how pairs and lists of pairs are shown. *)
Definition pairs_text (l : list (pystr * pystr)) : pystr := concat (map (fun x => fst x ++ snd x) l).
Definition between (l : list pystr) : pystr := match l with [] => [] | x :: r => x ++ concat (map (fun y => str "," ++ y) r) end.
Definition shown_pair (x : pystr * pystr) : pystr := str "({" ++ fst x ++ str "}, {" ++ snd x ++ str "})".
Definition shown (I O : list (pystr * pystr)) : pystr := str "({" ++ between (map shown_pair I) ++ str "}, {" ++ between (map shown_pair O) ++ str "})".
Definition shown_line (x : pystr * pystr) : pystr := str "(" ++ fst x ++ str ", " ++ snd x ++ str ")".
