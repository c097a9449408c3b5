(** What the search for places of the alpha++ NFC algorithm is meant to find. *)
From Verif Require Import Py InfoSpec ReplayModel ReplaySpec RInfoSpec AlphaModel AlphaSpec PlusSpec NfcSpec.

(** Three sets of names such that a relation holds for all of one name of each. *)
Definition fits3 (R : pystr -> pystr -> pystr -> Prop) (A B C : list pystr) : Prop :=
  A <> [] /\ B <> [] /\ C <> [] /\ forall a b c, In a A -> In b B -> In c C -> R a b c.
(** No larger three sets fit. *)
Definition maximal3 (R : pystr -> pystr -> pystr -> Prop) (A B C : list pystr) : Prop :=
  fits3 R A B C /\ forall A' B' C', fits3 R A' B' C' -> incl A A' -> incl B B' -> incl C C' -> incl A' A /\ incl B' B /\ incl C' C.

(** [c] follows itself, comes directly after [a] and directly before [b], neither of which it is around; [a] and [b] do not follow
    themselves and are not beside each other. *)
Definition loop_between (log : list (list pystr)) (a b c : pystr) : Prop :=
  one_loop log c /\ follows log None a c /\ ~ triangle log c a /\ follows log None c b /\ ~ triangle log c b /\
  ~ nfc_beside log None a b /\ apart log None a a /\ apart log None b b.
(** The text of three sets: their names in ascending order, with nothing between them. *)
Definition text3 (A B C : list pystr) : pystr := concat A ++ concat B ++ concat C.
(** Different sets which fit have different texts. *)
Definition clear_texts (R : pystr -> pystr -> pystr -> Prop) : Prop := forall A B C A' B' C',
  bsorted A -> bsorted B -> bsorted C -> bsorted A' -> bsorted B' -> bsorted C' -> fits3 R A B C -> fits3 R A' B' C' ->
  text3 A B C = text3 A' B' C' -> A = A' /\ B = B' /\ C = C'.
(** Different pairs of sets which fit have different lists of names. *)
Definition clear_lists (F : list pystr -> list pystr -> Prop) : Prop := forall A B A' B',
  bsorted A -> bsorted B -> bsorted A' -> bsorted B' -> F A B -> F A' B' -> A ++ B = A' ++ B' -> A = A' /\ B = B'.

(** * Sets with extensions
    Names which may be added to the sets of a place: names [S], not there yet, related to the names of the other side and to each
    other, and not related to the names of their own side. *)
Record extends (S : pystr -> Prop) (W U : pystr -> pystr -> Prop) (A B A' B' : list pystr) : Prop := {
  ex_left : forall a, In a A' -> S a /\ ~ In a A;
  ex_right : forall b, In b B' -> S b /\ ~ In b B;
  ex_lr : forall a b, In a A -> In b B' -> W a b;
  ex_rl : forall a b, In a A' -> In b B -> W a b;
  ex_rr : forall a b, In a A' -> In b B' -> W a b;
  ex_aa : forall a a', In a A' -> In a' A -> U a a';
  ex_bb : forall b' b, In b' B -> In b B' -> U b' b }.
(** No more names can be added. *)
Definition full_extension (S : pystr -> Prop) (W U : pystr -> pystr -> Prop) (A B A' B' : list pystr) : Prop :=
  extends S W U A B A' B' /\ forall A'' B'', extends S W U A B A'' B'' -> incl A' A'' -> incl B' B'' -> incl A'' A' /\ incl B'' B'.
(** Different extensions have different texts. *)
Definition clear_extensions (F : list pystr -> list pystr -> Prop) : Prop := forall A B A' B',
  bsorted A -> bsorted B -> bsorted A' -> bsorted B' -> F A B -> F A' B' -> concat A ++ concat B = concat A' ++ concat B' -> A = A' /\ B = B'.
