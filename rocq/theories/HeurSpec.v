(** What the heuristic miner is meant to compute. *)
From Coq Require Import QArith.
From Verif Require Import Py InfoModel InfoSpec ReplayModel ReplaySpec RInfoSpec AlphaSpec HeurModel.
Open Scope nat_scope.

(** * The log
    How often a name directly follows another one, and how often it is met right before and right after another one. *)
Definition times (log : list (list pystr)) (a b : pystr) : nat := count_occ pair_eq_dec (steps log None false) (a, b).
Fixpoint sandwich (t : list pystr) (a b : pystr) : nat :=
  match t with
  | x :: ((y :: z :: _) as r) => (if str_eqb x a && str_eqb y b && str_eqb z a then 1 else 0) + sandwich r a b
  | _ => 0
  end.
Definition sandwiches (log : list (list pystr)) (a b : pystr) : nat := list_sum (map (fun t => sandwich t a b) log).
Definition class_of (log : list (list pystr)) (c : pystr) : Prop := exists t, In t log /\ In c t.
Definition num (n : nat) : Q := inject_Z (Z.of_nat n).

(** * The relations *)
Definition dependency (log : list (list pystr)) (a b : pystr) : Q :=
  if str_eqb a b then (num (times log a a) / (num (times log a a) + 1))%Q
  else ((num (times log a b) - num (times log b a)) / (num (times log a b) + num (times log b a) + 1))%Q.
(** Often enough and strong enough. *)
Definition candidate (log : list (list pystr)) (p : hparams) (a b : pystr) : Prop :=
  class_of log a /\ class_of log b /\ hp_positive p <= times log a b /\ (hp_dependency p < dependency log a b)%Q.
(** And not much weaker than the strongest one. *)
Definition depends (log : list (list pystr)) (p : hparams) (a b : pystr) : Prop :=
  candidate log p a b /\ exists best, candidate log p a best /\ (forall c, candidate log p a c -> dependency log a c <= dependency log a best)%Q /\
    (dependency log a best * (1 - hp_best p) <= dependency log a b)%Q.
(** After [a], both [b] and [c] happen. *)
Definition together (log : list (list pystr)) (p : hparams) (a b c : pystr) : Prop :=
  (hp_and p < (num (times log b c) + num (times log c b)) / (num (times log a b) + num (times log a c) + 1))%Q.
(** The names alternate. *)
Definition alternate (log : list (list pystr)) (p : hparams) (a b : pystr) : Prop :=
  (hp_loop p < (num (sandwiches log a b) + num (sandwiches log b a)) / (num (sandwiches log a b) + num (sandwiches log b a) + 1))%Q.
(** At least two names which all happen after [a], and no more can be added. *)
Definition group (log : list (list pystr)) (p : hparams) (a : pystr) (G : list pystr) : Prop :=
  (forall b, In b G -> depends log p a b) /\ (forall b c, In b G -> In c G -> b <> c -> together log p a b c) /\
  exists b c, In b G /\ In c G /\ b <> c.
Definition top_group (log : list (list pystr)) (p : hparams) (a : pystr) (G : list pystr) : Prop :=
  group log p a G /\ forall G', group log p a G' -> incl G G' -> incl G' G.

(** * The net
    For each name on which others depend there is a place behind its transition, and for each group after it a silent
    transition, with a place for each name of the group. *)
Record hgroup := mkHGroup { hg_id : N; hg_places : list (pystr * N) }.
Record hblock := mkHBlock { hb_class : pystr; hb_post : N; hb_groups : list hgroup }.
Definition hg_names (g : hgroup) : list pystr := map fst (hg_places g).
Definition hb_places (b : hblock) : dict N pystr :=
  (hb_post b, str "post_" ++ hb_class b) :: flat_map (fun g => map (fun cp => (snd cp, str "pre_" ++ fst cp)) (hg_places g)) (hb_groups b).
Definition ins (t : ptrans) : list N := map arc_place (tr_in t).
Definition outs (t : ptrans) : list N := map arc_place (tr_out t).
Definition hb_silent (b : hblock) : list (N * pystr * bool * list N * list N) :=
  map (fun g => (hg_id g, str "silent_start_" ++ hb_class b, true, [hb_post b], map snd (hg_places g))) (hb_groups b).
(** The places before the transition of a name. *)
Definition before (log : list (list pystr)) (p : hparams) (blocks : list hblock) (c : pystr) (place : N) : Prop :=
  exists b, In b blocks /\
    ((place = hb_post b /\ depends log p (hb_class b) c /\ forall g, In g (hb_groups b) -> ~ In c (hg_names g)) \/
     exists g, In g (hb_groups b) /\ In (c, place) (hg_places g)).
(** The blocks are those of the log. *)
Record blocks_of (log : list (list pystr)) (p : hparams) (blocks : list hblock) : Prop := {
  bo_once : NoDup (map hb_class blocks);
  bo_classes : forall a, In a (map hb_class blocks) <-> exists b, depends log p a b;
  bo_groups : forall b, In b blocks -> NoDup (map hg_names (hb_groups b)) /\
    forall G, In G (map hg_names (hb_groups b)) <-> bsorted G /\ top_group log p (hb_class b) G }.
(** The transitions of the names, before arcs for names which alternate are added. *)
Record loud_of (log : list (list pystr)) (p : hparams) (blocks : list hblock) (loud : list ptrans) : Prop := {
  lo_once : NoDup (map tr_name loud);
  lo_classes : forall c, In c (map tr_name loud) <-> class_of log c;
  lo_loud : forall t, In t loud -> tr_silent t = false;
  lo_ins : forall t, In t loud -> NoDup (ins t) /\ forall place, In place (ins t) <-> before log p blocks (tr_name t) place;
  lo_outs : forall t, In t loud -> outs t = map hb_post (filter (fun b => str_eqb (hb_class b) (tr_name t)) blocks) }.
(** The arcs added for names which alternate with that of the transition. *)
Definition looped (log : list (list pystr)) (p : hparams) (loud : list ptrans) (t t' : ptrans) : Prop :=
  tr_id t' = tr_id t /\ tr_name t' = tr_name t /\ tr_silent t' = tr_silent t /\
  exists partners, NoDup partners /\
    (forall u, In u partners <-> In u loud /\ tr_name u <> tr_name t /\ alternate log p (tr_name t) (tr_name u)) /\
    ins t' = ins t ++ flat_map outs partners /\ outs t' = outs t ++ flat_map ins partners.
Record heur_net (log : list (list pystr)) (p : hparams) (blocks : list hblock) (loud : list ptrans) (net : pnet) : Prop := {
  hn_blocks : blocks_of log p blocks;
  hn_loud : loud_of log p blocks loud;
  hn_ids : NoDup (all_ids net);
  hn_places : n_places net = flat_map hb_places blocks;
  hn_initial : n_initial net = None;
  hn_final : n_final net = None;
  hn_trans : exists loud' silent, n_trans net = loud' ++ silent /\ Forall2 (looped log p loud) loud loud' /\
    map (fun t => (tr_id t, tr_name t, tr_silent t, ins t, outs t)) silent = flat_map hb_silent blocks }.
(** No name looks like that of a silent transition. *)
Definition clear_names (log : list (list pystr)) : Prop := forall c a, class_of log c -> class_of log a -> c <> str "silent_start_" ++ a.
