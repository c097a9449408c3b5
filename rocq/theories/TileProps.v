From Verif Require Import Py PatternModel PatternSpec TileModel TileSpec TileProofs.

(** C33: the pieces reported for a trace are exactly those of the only splitting in which every
    piece runs from the end of the one before to the first run that is part of no pattern. *)
Theorem C33_tiles : forall trace patterns pieces,
  tiles trace patterns 0 pieces <-> pieces = add_all_patterns_trace trace patterns.
Proof. exact tiles_exact_proof. Qed.
Print Assumptions C33_tiles.

(** C33: the pieces are consecutive, not empty, start at 0, and stop before the last event. *)
Theorem C33_consecutive : forall trace patterns,
  let pieces := add_all_patterns_trace trace patterns in
  (trace <> [] -> total pieces < length trace) /\
  (forall i p, nth_error pieces i = Some p -> sa_first_pos p = total (firstn i pieces) /\ 0 < sa_length p).
Proof. exact consecutive_proof. Qed.
Print Assumptions C33_consecutive.

(** C33: no reported piece is a pattern or a part of a pattern. *)
Theorem C33_pieces_are_not_patterns : forall trace patterns p q,
  In p (add_all_patterns_trace trace patterns) -> In q patterns -> ~ inside (block trace p) (block trace q).
Proof. exact not_pattern_proof. Qed.
Print Assumptions C33_pieces_are_not_patterns.

(** C33: so it is not true that the result contains the occurrences of the patterns. *)
Theorem C33_contains_patterns_refuted : exists trace patterns,
  patterns <> [] /\ Forall (fun p => 0 < sa_length p /\ sa_first_pos p + sa_length p <= length trace) patterns /\
  ~ (exists p q, In p (add_all_patterns_trace trace patterns) /\ In q patterns /\ block trace p = block trace q).
Proof.
  exists [1; 2; 1; 2; 3]%N, [mkSub 0 2]. split; [discriminate|]. split; [repeat constructor|].
  intros (p & q & Hp & Hq & E). apply (C33_pieces_are_not_patterns _ _ _ _ Hp Hq). rewrite E. exists [], []. now rewrite app_nil_r.
Qed.
Print Assumptions C33_contains_patterns_refuted.

(** C33: a log is treated trace by trace. *)
Theorem C33_log : forall log patterns, length log = length patterns ->
  length (add_all_patterns log patterns) = length log /\
  forall i t ps, nth_error log i = Some t -> nth_error patterns i = Some ps ->
    nth_error (add_all_patterns log patterns) i = Some (add_all_patterns_trace t ps).
Proof. exact log_proof. Qed.
Print Assumptions C33_log.

(** C33: without patterns every event but the last is a piece of its own. *)
Theorem C33_no_patterns : forall trace,
  add_all_patterns_trace trace [] = map (fun i => mkSub i 1) (seq 0 (length trace - 1)).
Proof. exact no_patterns_proof. Qed.
Print Assumptions C33_no_patterns.

Example C33_ex : add_all_patterns [[1; 2; 1; 2; 3; 1]; [7; 7]]%N [[mkSub 0 2]; []] = [[mkSub 0 3; mkSub 3 2]; [mkSub 0 1]].
Proof. vm_compute. reflexivity. Qed.
