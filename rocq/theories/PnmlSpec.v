(** What a PNML file of a net is meant to have in it. *)
From Coq Require Import Permutation Sorting.Sorted.
From Verif Require Import Py HashModel XesModel RXesModel RXesSpec RInfoSpec ReplayModel PnmlModel.

(** * XML *)
(** Elements with their attributes as they are after reading. *)
Inductive xml := Elem (tag : pystr) (attrs : list (pystr * pystr)) (inside : list xml) | Chars (text : pystr).
Fixpoint tags (x : xml) : list ptok :=
  match x with
  | Elem tag attrs inside => PStart tag (map (fun kv => (fst kv, escape (snd kv))) attrs) :: flat_map tags inside ++ [PEnd tag]
  | Chars text => [PText (escape text)]
  end.
Definition attr (name : pystr) (x : xml) : option pystr := match x with Elem _ attrs _ => dget str_eq_dec attrs name | Chars _ => None end.
Definition is_tag (tag : pystr) (x : xml) : bool := match x with Elem t _ _ => str_eqb t tag | Chars _ => false end.

(** * The elements of a net *)
Definition decimal (id : N) : pystr := show_int (Z.of_N id).
Definition place_element (names : bool) (p : N * pystr) : xml :=
  Elem (str "place") [(str "id", if names then snd p else decimal (fst p))] [].
Definition transition_element (names : bool) (data : N -> option pystr) (t : ptrans) : xml :=
  Elem (str "transition") [(str "id", if names then tr_name t else decimal (tr_id t))]
    match data (tr_id t) with Some d => [Elem (str "name") [] [Elem (str "text") [] [Chars d]]] | None => [] end.
(** The arcs of a net: the place, the transition, whether it leads to the transition, and the id. *)
Record narc := mkNArc { na_place : N; na_trans : ptrans; na_to : bool; na_id : N }.
Definition arcs_in (t : ptrans) : list narc := map (fun a => mkNArc (arc_place a) t true (arc_id a)) (tr_in t).
Definition arcs_out (t : ptrans) : list narc := map (fun a => mkNArc (arc_place a) t false (arc_id a)) (tr_out t).
Definition net_arcs (net : pnet) : list narc := flat_map (fun t => arcs_in t ++ arcs_out t) (n_trans net).
Definition place_name (net : pnet) (id : N) : pystr := match dget N.eq_dec (n_places net) id with Some n => n | None => [] end.
Definition braces (a b : pystr) : pystr := str "[{" ++ a ++ str "}--{" ++ b ++ str "}]".
Definition arc_element (names : bool) (net : pnet) (a : narc) : xml :=
  let p := if names then place_name net (na_place a) else decimal (na_place a) in
  let t := if names then tr_name (na_trans a) else decimal (tr_id (na_trans a)) in
  if na_to a then Elem (str "arc") [(str "id", if names then braces p t else decimal (na_id a)); (str "source", p); (str "target", t)] []
  else Elem (str "arc") [(str "id", if names then braces t p else decimal (na_id a)); (str "target", p); (str "source", t)] [].
Definition sorted_on {A} (key : A -> pystr) (l : list A) : Prop := StronglySorted (fun a b => str_leb (key a) (key b) = true) l.
Definition id_text (names : bool) (net : pnet) (a : narc) : pystr := match attr (str "id") (arc_element names net a) with Some s => s | None => [] end.
(** The elements inside of the net: places by name, transitions by name, then for each of these the arcs to and from it by id. *)
Definition content (names : bool) (net : pnet) (data : N -> option pystr) (kids : list xml) : Prop :=
  exists ps ts arcs,
    Permutation ps (n_places net) /\ sorted_on snd ps /\
    Permutation ts (n_trans net) /\ sorted_on tr_name ts /\
    Forall2 (fun t l => exists ins outs, l = ins ++ outs /\ Permutation ins (arcs_in t) /\ sorted_on (id_text names net) ins /\
                                        Permutation outs (arcs_out t) /\ sorted_on (id_text names net) outs) ts arcs /\
    kids = map (place_element names) ps ++ map (transition_element names data) ts ++ map (arc_element names net) (concat arcs).
Definition pnml (kids : list xml) : xml := Elem (str "pnml") [] [Elem (str "net") [] kids].

(** * Nets *)
Definition places_there (net : pnet) : Prop := forall a, In a (net_arcs net) -> dget N.eq_dec (n_places net) (na_place a) <> None.
(** All ids are different, as next_id gives them. *)
Definition distinct_ids (net : pnet) : Prop := NoDup (dkeys (n_places net) ++ map tr_id (n_trans net) ++ map na_id (net_arcs net)).
Definition distinct_names (net : pnet) : Prop := NoDup (map snd (n_places net)) /\ NoDup (map tr_name (n_trans net)).

(** * What can be told from a file *)
Definition named_arcs (net : pnet) : list (pystr * pystr * bool) := map (fun a => (place_name net (na_place a), tr_name (na_trans a), na_to a)) (net_arcs net).
Definition numbered_arcs (net : pnet) : list (N * N * N * bool) := map (fun a => (na_id a, na_place a, tr_id (na_trans a), na_to a)) (net_arcs net).
