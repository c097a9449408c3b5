(** Vocabulary for C50: what a diagram of sub traces has to show. *)
From Verif Require Import Py LogModel ActLogModel ColorModel DrawModel.

(** Rectangles side by side from x to x_end. *)
Fixpoint side_by_side (x : N) (rs : list rect) (x_end : N) : Prop :=
  match rs with [] => x = x_end | r :: rest => rx r = x /\ side_by_side (x + rw r)%N rest x_end end.

(** The sub traces follow each other from position [last] on and end within the trace. *)
Fixpoint well_placed (last : N) (ds : list dto) (len : N) : Prop :=
  match ds with [] => (last <= len)%N | d :: r => (last <= d_start d)%N /\ well_placed (d_start d + d_len d) r len end.

(** Position i lies in the sub trace. *)
Definition covers (d : dto) (i : N) : Prop := (d_start d <= i < d_start d + d_len d)%N.

(** Position i of the trace, w wide, is painted with colour c. *)
Definition painted_at (w : N) (rs : list rect) (i : N) (c : pystr) : Prop :=
  exists r, In r rs /\ (rx r <= i * w)%N /\ ((i + 1) * w <= rx r + rw r)%N /\ fc r = c.

(** The pieces of a trace from [last] on: sub traces (their hash) and what lies between them. *)
Fixpoint pieces (last : N) (ds : list dto) (len : N) : list (option Z) :=
  match ds with
  | [] => if (last <? len)%N then [None] else []
  | d :: r => (if (last <? d_start d)%N then [None] else []) ++ Some (d_hash d) :: pieces (d_start d + d_len d) r len
  end.
(** A trace without sub traces is one piece, also when it is empty. *)
Definition trace_pieces (ds : list dto) (len : N) : list (option Z) := match ds with [] => [None] | _ => pieces 0 ds len end.

(** The sub traces that are drawn: zip stops at the shorter list. *)
Definition drawn_subs (dss : list (list dto)) (lens : list nat) : list dto := concat (map fst (combine dss lens)).

(** The colour of a name: the cached one, black for the undefined activity without one. *)
Definition name_color (ca : dict pystr pystr) (n : pystr) : pystr :=
  match dget str_eq_dec ca n with Some c => c | None => str "#000000" end.

(** The total length of coloured rectangles. *)
Definition total (cs : list colored) : N := fold_right N.add 0%N (map c_len cs).
Definition widest (css : list (list colored)) : N := fold_right N.max 0%N (map total css).
(** Rectangles of a row of coloured rectangles starting at x. *)
Fixpoint spread (ws hs : N) (cs : list colored) (x y : N) : list rect :=
  match cs with
  | [] => []
  | c :: r => mkRect x y (ws * c_len c) hs (color_hex (c_color c)) :: spread ws hs r (x + ws * c_len c)%N y
  end.

(** The instances of one activity, as numbered sub traces. *)
Definition selected (activity : pystr) (acts : list (pystr * N * N)) : list (pystr * N * N) :=
  filter (fun t => str_eqb (fst (fst t)) activity) acts.
Fixpoint number (b : Z) (l : list (pystr * N * N)) : list dto :=
  match l with [] => [] | (nm, s, ln) :: r => mkDto s ln b nm :: number (b + 1) r end.

(** A row that shows the instances with these colours and the rest of the trace in black. *)
Definition shows_instances (row : list rect) (sel : list (pystr * N * N)) (cs : list pystr) (len : N) : Prop :=
  side_by_side 0 row len /\ length cs = length sel /\
  forall i, (i < len)%N ->
    (forall j nm s ln, nth_error sel j = Some (nm, s, ln) -> (s <= i < s + ln)%N ->
       exists c, nth_error cs j = Some c /\ painted_at 1 row i c) /\
    ((forall nm s ln, In (nm, s, ln) sel -> ~ (s <= i < s + ln)%N) -> painted_at 1 row i (str "#000000")).
