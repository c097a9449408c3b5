(** What replay of a log on a Petri net is meant to do, in terms of the usual firing rule on numbers of tokens. *)
From Coq Require Import QArith Permutation.
From Verif Require Import Py ReplayModel.
Open Scope nat_scope.

(** The tokens a marking puts into a place. *)
Definition tokens (m : pmarking) (p : N) : nat := match dget N.eq_dec m p with Some n => n | None => 0 end.
(** How many tokens a transition takes from and puts into a place. *)
Definition needs (t : ptrans) (p : N) : nat := count_occ N.eq_dec (map arc_place (tr_in t)) p.
Definition gives (t : ptrans) (p : N) : nat := count_occ N.eq_dec (map arc_place (tr_out t)) p.
(** The firing rule of Petri nets. *)
Definition enabled (M : N -> nat) (t : ptrans) : Prop := forall p, needs t p <= M p.
Definition fires (M : N -> nat) (t : ptrans) (M' : N -> nat) : Prop :=
  enabled M t /\ forall p, M' p = M p - needs t p + gives t p.

(** A run of the net which spells a word: silent transitions spell nothing, the others their name. *)
Inductive run (net : pnet) : (N -> nat) -> list pystr -> list N -> (N -> nat) -> Prop :=
| run_stop : forall M M', (forall p, M p = M' p) -> run net M [] [] M'
| run_event : forall M t M1 w ids M2, In t (n_trans net) -> tr_silent t = false -> fires M t M1 ->
    run net M1 w ids M2 -> run net M (tr_name t :: w) (tr_id t :: ids) M2
| run_silent : forall M t M1 w ids M2, In t (n_trans net) -> tr_silent t = true -> fires M t M1 ->
    run net M1 w ids M2 -> run net M w (tr_id t :: ids) M2.

(** No transition takes two tokens from one place. *)
Definition simple_net (net : pnet) : Prop := forall t, In t (n_trans net) -> NoDup (map arc_place (tr_in t)).
(** A marking names every place once and only places with tokens. *)
Definition proper (m : pmarking) : Prop := NoDup (dkeys m) /\ forall p n, In (p, n) m -> 0 < n.

(** From no marking can silent transitions fire for ever. *)
Definition silent_ends (net : pnet) : Prop :=
  forall m : pmarking, Acc (fun m' m => exists t, In t (n_trans net) /\ tr_silent t = true /\ fires (tokens m) t (tokens m')) m.

(** How often something occurs. *)
Definition occurs_n (x : N) (l : list N) : nat := count_occ N.eq_dec l x.
(** The transitions fired over a whole log. *)
Definition all_fired (states : list (option rstate)) : list N :=
  flat_map (fun o => match o with Some s => rs_fired s | None => [] end) states.
(** The arcs of a transition. *)
Definition arcs_of (t : ptrans) : list N := map arc_id (tr_in t) ++ map arc_id (tr_out t).
(** Everything in a net is told apart by its id. *)
Definition ids_distinct (net : pnet) : Prop :=
  NoDup (map tr_id (n_trans net)) /\ NoDup (flat_map arcs_of (n_trans net)).

(** Two nets with the same transitions in any order. *)
Definition same_net (net net' : pnet) : Prop := Permutation (n_trans net) (n_trans net') /\ n_initial net = n_initial net'.
(** The trace was replayed. *)
Definition replayed (o : option rstate) : bool := match o with Some _ => true | None => false end.
(** Every silent transition takes more weight than it gives. *)
Definition silent_sinks (net : pnet) (weight : N -> nat) : Prop :=
  forall t, In t (n_trans net) -> tr_silent t = true ->
    list_sum (map weight (map arc_place (tr_out t))) < list_sum (map weight (map arc_place (tr_in t))).
(** The transition is named like the first, or the last, event of some trace. *)
Definition starts_some (log : list (list pystr)) (t : ptrans) : bool :=
  existsb (fun tr => match tr with x :: _ => str_eqb x (tr_name t) | [] => false end) log.
Definition ends_some (log : list (list pystr)) (t : ptrans) : bool :=
  existsb (fun tr => match rev tr with x :: _ => str_eqb x (tr_name t) | [] => false end) log.
(** Sum of quotients. *)
Definition qsum (l : list Q) : Q := fold_right Qplus 0%Q l.
(** The outcome for a trace is right: a run that spells it, or there is no such run. *)
Definition replay_right (net : pnet) (init : pmarking) (events : list pystr) (o : option rstate) : Prop :=
  match o with
  | Some s => run net (tokens init) events (rs_fired s) (tokens (rs_marking s))
  | None => forall ids M, ~ run net (tokens init) events ids M
  end.
(** What becomes of a transition. *)
Definition ensured (log : list (list pystr)) (start stop : N) (t t' : ptrans) : Prop :=
  tr_id t' = tr_id t /\ tr_name t' = tr_name t /\ tr_silent t' = tr_silent t /\
  map arc_place (tr_in t') = map arc_place (tr_in t) ++ (if starts_some log t then [start] else []) /\
  map arc_place (tr_out t') = map arc_place (tr_out t) ++ (if ends_some log t then [stop] else []).
