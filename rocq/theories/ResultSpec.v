(** Vocabulary for the results of C44 and C52: what the frontend is to hold for a value of the backend. *)
From Verif Require Import Py WireModel BackendModel DecodeModel.

(** A u64 read as an i64. *)
Definition signed (z : Z) : Z := if (z <? 2 ^ 63)%Z then z else (z - 2 ^ 64)%Z.
(** A usize or u64; a usize read as an i32. *)
Definition word (z : Z) : Prop := (0 <= z < 2 ^ 64)%Z.
Definition label32 (z : Z) : Prop := (0 <= z < 2 ^ 31)%Z.

Definition held_arc (a : rarc) : arc := mkArc (signed (ra_id a)) (signed (ra_place a)) (signed (ra_tokens a)).
Definition held_transition (t : rtransition) : transition :=
  mkTransition (signed (rt_id t)) (map held_arc (rt_in t)) (map held_arc (rt_out t))
    (Some match rt_data t with Some s => s | None => [] end).
Definition held_place (p : Z * pystr) : place := mkPlace (signed (fst p)) (snd p).
Definition held_single (m : Z * Z) : single := mkSingle (signed (fst m)) (signed (snd m)).
(** A missing marking is held as an empty one. *)
Definition held_marking (m : option (list (Z * Z))) : option (list single) :=
  Some match m with Some l => map held_single l | None => [] end.

Definition arc_words (a : rarc) : Prop := word (ra_id a) /\ word (ra_place a) /\ word (ra_tokens a).
Definition marking_words (m : option (list (Z * Z))) : Prop :=
  forall l p, m = Some l -> In p l -> word (fst p) /\ word (snd p).
(** A net as the backend's hash maps hold it. *)
Record net_ok (n : rnet) : Prop := {
  nk_places : NoDup (map fst (rn_places n));
  nk_transitions : NoDup (map rt_id (rn_transitions n));
  nk_place_words : forall p, In p (rn_places n) -> word (fst p);
  nk_transition_words : forall t, In t (rn_transitions n) -> word (rt_id t);
  nk_arc_words : forall t a, In t (rn_transitions n) -> In a (rt_in t ++ rt_out t) -> arc_words a;
  nk_initial : marking_words (rn_initial n);
  nk_final : marking_words (rn_final n)
}.

Definition held_color (c : Z * Z * Z) : color := mkColor (fst (fst c)) (snd (fst c)) (snd c).
Definition held_rect (r : rrect) : crect :=
  mkCRect (held_color (rr_color r)) (rr_start r) (rr_length r) (rr_name r).

(** A rectangular dataset. *)
Definition regular (d : rdataset) : Prop :=
  length (rd_names d) = length (rd_values d) /\
  forall row, In row (rd_values d) -> length row = length (rd_columns d).
