(** What the relations of the alpha++ NFC algorithm are meant to say. *)
From Verif Require Import Py InfoSpec RInfoSpec AlphaSpec PlusSpec.

Section Rel.
  Variable log : list (list pystr).
  Variable ign : option (list pystr).
  Variable more : list (pystr * pystr).
  (** Names related by the algorithm: a name in [ign] is not seen; [more] are related whatever the log says. *)
  Definition nfc_before (a b : pystr) : Prop :=
    In (a, b) more \/ (follows log ign a b /\ (~ follows log ign b a \/ triangle log a b \/ triangle log b a)).
  Definition nfc_beside (a b : pystr) : Prop :=
    follows log ign a b /\ follows log ign b a /\ ~ triangle log a b /\ ~ triangle log b a.
  Definition apart (a b : pystr) : Prop := unrelated log ign a b.
  Definition seen (c : pystr) : Prop := (exists t, In t log /\ In c t) /\ match ign with Some l => ~ In c l | None => True end.
  (** Names which are apart and share a name before, or after, them. *)
  Definition forked (a b : pystr) : Prop := apart a b /\ exists c, seen c /\ nfc_before c a /\ nfc_before c b.
  Definition joined (a b : pystr) : Prop := apart a b /\ exists c, seen c /\ nfc_before a c /\ nfc_before b c.
  (** [b] comes after [a] somewhere, with neither of them between, something seen between, and nothing seen between which is an
      alternative of [a]. *)
  Definition later (a b : pystr) : Prop :=
    a <> b /\ ~ follows log ign a b /\
    exists l1 between l2, In (l1 ++ a :: between ++ b :: l2) log /\ ~ In a between /\ ~ In b between /\
      (exists c, In c between /\ seen c) /\ forall c, In c between -> seen c -> ~ forked c a /\ ~ joined c a.
End Rel.

(** A walk along a relation, with the number of its steps. *)
Inductive walk {A} (R : A -> A -> Prop) : nat -> A -> A -> Prop :=
| walk_none a : walk R 0 a a
| walk_step n a b c : R a b -> walk R n b c -> walk R (S n) a c.
(** A walk of at least one step; a walk which can go on for ever. *)
Definition leads {A} (R : A -> A -> Prop) (a b : A) : Prop := exists n, walk R (S n) a b.
Definition endless {A} (R : A -> A -> Prop) (a : A) : Prop := exists n c, walk R n a c /\ leads R c c.
Definition touched (relations : list (pystr * pystr)) (c : pystr) : Prop := exists d, In (c, d) relations \/ In (d, c) relations.
