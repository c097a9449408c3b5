(** Vocabulary for C41, independent of how colours are generated and diagrams drawn. *)
From Verif Require Import Py LogModel ColorModel.

(** A hexadecimal digit as written by %X, and its value. *)
Definition hex_char (c : N) : Prop := (48 <= c <= 57 \/ 65 <= c <= 70)%N.
Definition hex_value (c : N) : N := if (c <=? 57)%N then (c - 48)%N else (c - 55)%N.
(** A colour: # and six hexadecimal digits; its three components. *)
Definition is_color (s : pystr) : Prop :=
  exists a b c d e f, s = [35; a; b; c; d; e; f]%N /\ Forall hex_char [a; b; c; d; e; f].
Definition components (s : pystr) : option (N * N * N) :=
  match s with
  | [_; a; b; c; d; e; f] => Some (16 * hex_value a + hex_value b, 16 * hex_value c + hex_value d, 16 * hex_value e + hex_value f)%N
  | _ => None
  end.

(** The random generator returns bytes; every three bytes come again and again. *)
Definition bytes (rnd : nat -> N) : Prop := forall n, (rnd n < 256)%N.
Definition fair (rnd : nat -> N) : Prop := forall n r g b, (r < 256)%N -> (g < 256)%N -> (b < 256)%N ->
  exists k, rnd (n + 3 * k) = r /\ rnd (n + 3 * k + 1) = g /\ rnd (n + 3 * k + 2) = b.

(** The event names of a log, trace by trace. *)
Definition names_of (log : eventlog) (nss : list (list pystr)) : Prop :=
  Forall2 (fun t ns => Forall2 (fun e n => eget e concept_name = Some (VStr n)) (t_events t) ns) (l_traces log) nss.

(** Rows of w x h rectangles, one per name, side by side, painted by [col]. *)
Definition paints (col : pystr -> pystr) (w h : N) (nss : list (list pystr)) (rows : list (list rect)) : Prop :=
  length rows = length nss /\
  forall i ns, nth_error nss i = Some ns ->
    exists row, nth_error rows i = Some row /\ length row = length ns /\
      forall j n, nth_error ns j = Some n -> nth_error row j = Some (mkRect (N.of_nat j * w) (N.of_nat i * h) w h (col n)).

(** Every name once, in the order of first appearance. *)
Fixpoint firsts (l : list pystr) : list pystr :=
  match l with [] => [] | x :: r => x :: remove str_eq_dec x (firsts r) end.

(** The legend shows every name once, with its colour. *)
Definition legend_of (col : pystr -> pystr) (names : list pystr) (legend : dict pystr rect) : Prop :=
  dkeys legend = firsts names /\ forall n r, In (n, r) legend -> fc r = col n.

(** The length of the longest trace; the exceptions of the axes: a zero scale, or no trace at all. *)
Definition longest (nss : list (list pystr)) : nat := fold_right Nat.max 0 (map (@length pystr) nss).
Definition bad_axes (nss : list (list pystr)) (ws hs : N) (e : exc) : Prop :=
  (e = ZeroDivisionError /\ (hs = 0 \/ ws = 0)%N) \/ (e = ValueError /\ nss = []).

(** Different names have different colours in a dict of colours, and all of them are taken. *)
Definition distinct (d : dict pystr pystr) : Prop :=
  forall n m c, dget str_eq_dec d n = Some c -> dget str_eq_dec d m = Some c -> n = m.
Definition taken (d : dict pystr pystr) (p : provider) : Prop :=
  forall n c, dget str_eq_dec d n = Some c -> In (CHex c) (used p).

(** Diagrams drawn one after the other with one provider and one cached_colors, whatever fails. *)
Inductive step :=
| Diversity (log : eventlog) (width_scale height_scale : N)
| Placements (events_predicate : pystr -> bool) (log : eventlog) (height_scale : N).
Definition draw_step rnd fuel (o : step) : st (provider * dict pystr pystr) (drawing * (N * N)) :=
  match o with
  | Diversity log ws hs => draw_traces_diversity_diagram rnd fuel log ws hs
  | Placements q log hs => draw_placements_of_events rnd fuel q log hs
  end.
Fixpoint session rnd fuel (os : list step) (s : provider * dict pystr pystr) : list (result (drawing * (N * N))) :=
  match os with
  | [] => []
  | o :: r => let '(s', x) := draw_step rnd fuel o s in x :: session rnd fuel r s'
  end.
(** The log of a step, its scales, and how it colours a name given the colours of names. *)
Definition step_log (o : step) := match o with Diversity log _ _ => log | Placements _ log _ => log end.
Definition step_scales (o : step) : N * N := match o with Diversity _ ws hs => (ws, hs) | Placements _ _ hs => (1%N, hs) end.
Definition step_color (o : step) (col : pystr -> pystr) (n : pystr) : pystr :=
  match o with Diversity _ _ _ => col n | Placements q _ _ => if q n then col n else str "#000000" end.
(** The names of a step that get a colour of their own. *)
Definition step_shows (o : step) (n : pystr) : bool := match o with Diversity _ _ _ => true | Placements q _ _ => q n end.
