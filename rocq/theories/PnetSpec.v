(** What a net is meant to have after calls which built it. *)
From Verif Require Import Py PnetModel.

(** The transitions a place was connected to and from, in the order of the calls. *)
Definition after_place (p : N) (l : list bcall) : list N := flat_map (fun c => match c with BToTransition q t => if N.eqb q p then [t] else [] | _ => [] end) l.
Definition before_place (p : N) (l : list bcall) : list N := flat_map (fun c => match c with BToPlace t q => if N.eqb q p then [t] else [] | _ => [] end) l.
(** The places a transition was connected from and to. *)
Definition before_transition (t : N) (l : list bcall) : list N := flat_map (fun c => match c with BToTransition q u => if N.eqb u t then [q] else [] | _ => [] end) l.
Definition after_transition (t : N) (l : list bcall) : list N := flat_map (fun c => match c with BToPlace u q => if N.eqb u t then [q] else [] | _ => [] end) l.
(** No transition is deleted. *)
Definition only_built (l : list bcall) : Prop := forall t, ~ In (BDelete t) l.
