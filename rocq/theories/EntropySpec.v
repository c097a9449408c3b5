(** Vocabulary: distributions and Shannon entropy over the reals. *)
From Coq Require Import Reals.
From Verif Require Import Py.
Open Scope R_scope.

Definition total (l : list R) : R := fold_right Rplus 0 l.

(** A probability vector. *)
Definition distribution (l : list R) : Prop :=
  Forall (fun p => 0 <= p <= 1) l /\ total l = 1.

(** -p log2 p, with 0 log 0 = 0. *)
Definition surprise (p : R) : R := if Req_EM_T p 0 then 0 else - (p * (ln p / ln 2)).
Definition shannon (l : list R) : R := total (map surprise l).

(** No event of the log uses one of the two reserved names. *)
Definition fake_free (log : list (list pystr)) : Prop :=
  forall t, In t log -> ~ In (str "FAKE_START") t /\ ~ In (str "FAKE_END") t.
