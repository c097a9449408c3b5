(** Colour providers and the diagrams that use them: legacy/util.py 74-124,
    legacy/analysis/event_log_analysis.py 107-350.

    Not modelled: matplotlib itself.  A drawn diagram is the list of rectangles added per trace, in
    order, and the dict behind the legend.  Scales are non-negative ints; x / y followed by int() is
    the integer quotient (exact below 2^53). *)
From Verif Require Import Py LogModel.

(** Members of used_colors: hex strings (util.py 94), and the tuple that draw_placements_of_events
    puts there (event_log_analysis.py 307). *)
Inductive cobj := CHex (s : pystr) | CTuple (r g b : N).
(** x in used_colors.  legacy/util.py 91. *)
Definition cobj_eq_dec (a b : cobj) : {a = b} + {a <> b}.
Proof. decide equality; try apply N.eq_dec. apply str_eq_dec. Defined.

(** One digit of '%X'.  legacy/util.py 124. *)
Definition hex_digit (n : N) : N := if (n <? 10)%N then (48 + n)%N else (55 + n)%N.
(** '%02X' for 0..255 (all callers pass such numbers).  legacy/util.py 124. *)
Definition hex2 (n : N) : pystr := [hex_digit (n / 16); hex_digit (n mod 16)].
(** to_hex, util.py 123-124. *)
Definition to_hex (r g b : N) : pystr := 35%N :: hex2 r ++ hex2 g ++ hex2 b.

(** A Python computation on a state: an exception keeps the changes made before it.  legacy/util.py 86-95. *)
Definition st (S A : Type) := S -> S * result A.
(** legacy/util.py 95. *)
Definition sret {S A} (a : A) : st S A := fun s => (s, Ok a).
(** legacy/util.py 88. *)
Definition sfail {S A} (e : exc) : st S A := fun s => (s, Err e).
(** legacy/util.py 90-95. *)
Definition sbind {S A B} (m : st S A) (f : A -> st S B) : st S B :=
  fun s => let '(s', r) := m s in match r with Ok a => f a s' | Err e => (s', Err e) end.

(** RandomUniqueColorsProvider, util.py 82-98: used_colors, and how many numbers were drawn from the
    random generator. *)
Record provider := mkProv { used : list cobj; drawn : nat }.

(** RandomUniqueColorsProvider.__init__, util.py 83-84. *)
Definition new_provider (n : nat) : provider := mkProv [] n.

(** used_colors.add(x).  legacy/util.py 94. *)
Definition use (x : cobj) (p : provider) : provider :=
  if in_dec cobj_eq_dec x (used p) then p else mkProv (x :: used p) (drawn p).

Section Random.
  (** What the n-th call of random.randint(0, 255) returns. *)
  Variable rnd : nat -> N.
  (** Bound on the number of draws of one call of next (the loop has no bound in the code). *)
  Variable fuel : nat.

  (** _generate_random_color, util.py 116-120: the tuple is evaluated left to right. *)
  Definition generate_random_color (p : provider) : provider * pystr :=
    (mkProv (used p) (drawn p + 3), to_hex (rnd (drawn p)) (rnd (drawn p + 1)) (rnd (drawn p + 2))).

  (** The loop of next, util.py 90-95. *)
  Fixpoint draw_unused (f : nat) : st provider pystr :=
    fun p =>
      match f with
      | 0 => (p, Err Diverges)
      | S f' => let '(p', c) := generate_random_color p in
                if in_dec cobj_eq_dec (CHex c) (used p') then draw_unused f' p' else (use (CHex c) p', Ok c)
      end.

  (** RandomUniqueColorsProvider.next, util.py 86-95. *)
  Definition next_color : st provider pystr :=
    fun p => if (N.of_nat (length (used p)) =? 256 ^ 3)%N then (p, Err OverflowError) else draw_unused fuel p.

  (** RandomUniqueColorsProvider.reset, util.py 97-98. *)
  Definition reset_provider (p : provider) : provider := mkProv [] (drawn p).

  (** SingleColorProvider.__init__, util.py 105-107; its state is the shared provider and cached_color. *)
  Definition new_single : st provider pystr := next_color.
  (** SingleColorProvider.next, util.py 109-110. *)
  Definition single_next : st (provider * pystr) pystr := fun s => (s, Ok (snd s)).
  (** SingleColorProvider.reset, util.py 112-113. *)
  Definition single_reset : st (provider * pystr) unit :=
    fun s => let '(p, r) := next_color (fst s) in
             match r with Ok c => ((p, c), Ok tt) | Err e => ((p, snd s), Err e) end.

  (** What can happen to random_unique_color_provider_instance (util.py 101): next, reset, and the
      tuple added by draw_placements_of_events (event_log_analysis.py 307).  legacy/util.py 86, 97. *)
  Inductive prov_op := Next | Reset | Reserve.
  (** One operation; None for the two that return nothing.  legacy/util.py 86-98. *)
  Definition do_op (o : prov_op) (p : provider) : provider * option (result pystr) :=
    match o with
    | Next => let '(p', r) := next_color p in (p', Some r)
    | Reset => (reset_provider p, None)
    | Reserve => (use (CTuple 0 0 0) p, None)
    end.
  (** A program's calls, one after the other (callers that catch exceptions included).  legacy/util.py 86-98. *)
  Fixpoint do_ops (os : list prov_op) (p : provider) : provider * list (option (result pystr)) :=
    match os with
    | [] => (p, [])
    | o :: r => let '(p', x) := do_op o p in let '(p'', xs) := do_ops r p' in (p'', x :: xs)
    end.

  (** plt.Rectangle((x, y), width, height, fc=color).  legacy/analysis/event_log_analysis.py 221. *)
  Record rect := mkRect { rx : N; ry : N; rw : N; rh : N; fc : pystr }.
  (** The patches added per trace and ctx.names_to_rects.  legacy/analysis/event_log_analysis.py 222-226. *)
  Definition drawing := (list (list rect) * dict pystr rect)%type.

  (** event[concept_name], event_log_analysis.py 213; names that are no str are a TypeError
      (simplification: any hashable value works as a name). *)
  Definition drawn_name (e : event) : result pystr :=
    bind (egetitem e concept_name) (fun v => match v with VStr s => Ok s | _ => Err TypeError end).

  Section Diagram.
    Context {S : Type}.
    (** Line 217: the colour of a name seen for the first time; 218 is part of [cached_or]. *)
    Variable lookup : pystr -> st S pystr.
    Variables rect_width rect_height : N.

    (** legacy/analysis/event_log_analysis.py 214-219. *)
    Definition pick (names_to_colors : dict pystr pystr) (name : pystr) : st S (pystr * dict pystr pystr) :=
      match dget str_eq_dec names_to_colors name with
      | Some c => sret (c, names_to_colors)
      | None => sbind (lookup name) (fun c => sret (c, dset str_eq_dec names_to_colors name c))
      end.

    (** The loop over the events of a trace, legacy/analysis/event_log_analysis.py 212-224. *)
    Fixpoint draw_events (es : list event) (x y : N) (names : dict pystr pystr) (rects : dict pystr rect)
      : st S (list rect * dict pystr pystr * dict pystr rect) :=
      match es with
      | [] => sret ([], names, rects)
      | e :: r =>
          match drawn_name e with
          | Err ex => sfail ex
          | Ok name =>
              sbind (pick names name) (fun cn =>
                let rc := mkRect x y rect_width rect_height (fst cn) in
                sbind (draw_events r (x + rect_width)%N y (snd cn) (dset str_eq_dec rects name rc)) (fun out =>
                  sret (rc :: fst (fst out), snd (fst out), snd out)))
          end
      end.

    (** The loop over the traces, 208-228; y_delta_between_traces is 0 (legacy/analysis/event_log_analysis.py 134). *)
    Fixpoint draw_traces (ts : list trace) (y : N) (names : dict pystr pystr) (rects : dict pystr rect) : st S drawing :=
      match ts with
      | [] => sret ([], rects)
      | t :: r =>
          sbind (draw_events (t_events t) 0 y names rects) (fun out =>
            sbind (draw_traces r (y + (rect_height + 0))%N (snd (fst out)) (snd out)) (fun rest =>
              sret (fst (fst out) :: fst rest, snd rest)))
      end.
  End Diagram.

  (** legacy/analysis/event_log_analysis.py 217-218: cached_colors[name] if name in cached_colors else colors_provider(name), then
      cached_colors[name] = color. *)
  Definition cached_or {S} (colors_provider : pystr -> st S pystr) (name : pystr) : st (S * dict pystr pystr) pystr :=
    fun s =>
      match dget str_eq_dec (snd s) name with
      | Some c => ((fst s, dset str_eq_dec (snd s) name c), Ok c)
      | None => let '(s', r) := colors_provider name (fst s) in
                match r with Ok c => ((s', dset str_eq_dec (snd s) name c), Ok c) | Err e => ((s', snd s), Err e) end
      end.

  (** The labels of the last ticks of the two axes: legacy/analysis/event_log_analysis.py 148-151 (y) and 155-170 (x), for the lengths of
      the traces of a log. *)
  Definition log_axes (lens : list nat) (width_scale height_scale : N) : result (N * N) :=
    let y_ticks_count := (N.of_nat (length lens) * height_scale + 1)%N in
    if (height_scale =? 0)%N then Err ZeroDivisionError else
    match lens with
    | [] => Err ValueError
    | _ => let x_ticks_count := (N.of_nat (fold_right Nat.max 0%nat lens) * width_scale + 1)%N in
           if (width_scale =? 0)%N then Err ZeroDivisionError
           else Ok ((y_ticks_count - 1) / height_scale, (x_ticks_count - 1) / width_scale)%N
    end.

  (** _draw_traces_diversity_like_diagram_internal, legacy/analysis/event_log_analysis.py 125-186, for a MyEventLog: draw_func, then the axes. *)
  Definition draw_internal {S A} (lens : list nat) (draw_func : st S A) (width_scale height_scale : N) : st S (A * (N * N)) :=
    sbind draw_func (fun d => match log_axes lens width_scale height_scale with Ok a => sret (d, a) | Err e => sfail e end).

  (** len of every trace.  legacy/analysis/event_log_analysis.py 156. *)
  Definition trace_lens (log : eventlog) : list nat := map (fun t => length (t_events t)) (l_traces log).

  (** _draw_traces_diversity_like_diagram, legacy/analysis/event_log_analysis.py 189-235; the state is that of the provider and cached_colors. *)
  Definition draw_like {S} (colors_provider : pystr -> st S pystr) (log : eventlog) (width_scale height_scale : N)
    : st (S * dict pystr pystr) (drawing * (N * N)) :=
    draw_internal (trace_lens log)
      (draw_traces (cached_or colors_provider) (1 * width_scale)%N (1 * height_scale)%N (l_traces log) 0 [] [])
      width_scale height_scale.

  (** draw_traces_diversity_diagram, legacy/analysis/event_log_analysis.py 270-283: the default provider, 197-203. *)
  Definition draw_traces_diversity_diagram (log : eventlog) (width_scale height_scale : N)
    : st (provider * dict pystr pystr) (drawing * (N * N)) :=
    draw_like (fun _ => next_color) log width_scale height_scale.

  (** default_color, legacy/analysis/event_log_analysis.py 308. *)
  Definition black : pystr := str "#000000".

  (** generate_color, legacy/analysis/event_log_analysis.py 310-318. *)
  Definition placement_color (events_predicate : pystr -> bool) (name : pystr) : st (provider * dict pystr pystr) pystr :=
    fun s =>
      if events_predicate name then
        match dget str_eq_dec (snd s) name with
        | Some c => (s, Ok c)
        | None => let '(p, r) := next_color (fst s) in
                  match r with Ok c => ((p, dset str_eq_dec (snd s) name c), Ok c) | Err e => ((p, snd s), Err e) end
        end
      else (s, Ok black).

  (** draw_placements_of_events, legacy/analysis/event_log_analysis.py 299-326: a dict() of its own as cached_colors of the diagram. *)
  Definition draw_placements_of_events (events_predicate : pystr -> bool) (log : eventlog) (height_scale : N)
    : st (provider * dict pystr pystr) (drawing * (N * N)) :=
    fun s =>
      let '((s', _), r) := draw_like (placement_color events_predicate) log 1 height_scale ((use (CTuple 0 0 0) (fst s), snd s), []) in
      (s', r).

  (** draw_placements_of_concrete_events, legacy/analysis/event_log_analysis.py 286-296. *)
  Definition draw_placements_of_concrete_events (events : list pystr) (log : eventlog) (height_scale : N) :=
    draw_placements_of_events (fun n => existsb (str_eqb n) events) log height_scale.

  (** The bars of draw_events_entropy_histogram, legacy/analysis/event_log_analysis.py 342-347; the entropies are given.  A bar is its x, its
      height and its colour; rect_length is 1. *)
  Fixpoint histogram_bars {F} (entropies : list (pystr * F)) (x : N) : st provider (list (pystr * (N * F * pystr))) :=
    match entropies with
    | [] => sret []
    | (n, e) :: r => sbind next_color (fun c => sbind (histogram_bars r (x + 1)%N) (fun bs => sret ((n, (x, e, c)) :: bs)))
    end.
End Random.
