(** C83: the PNML file of a net. *)
From Coq Require Import Permutation.
From Verif Require Import Py HashModel XesModel RXesModel RInfoSpec ReplayModel PnmlModel PnmlSpec PnmlProofs PnmlProofs2.

(** The file is one element for the net with one element for each place, transition and arc. *)
Theorem C83_file :
  forall ord net data names, any_order ord -> places_there net ->
  exists kids, serialize_to_pnml ord net data names = Ok (tags (pnml kids)) /\ content names net data kids.
Proof. exact (fun ord net data names O H => ex_intro _ _ (conj (serialize_ok net data names ord O H) (kids_content net data names ord O))). Qed.
Print Assumptions C83_file.

(** It is written exactly when the places of all arcs are places of the net; otherwise there is a panic. *)
Theorem C83_when :
  forall ord net data names, any_order ord ->
  ((exists toks, serialize_to_pnml ord net data names = Ok toks) <-> places_there net) /\
  (forall e, serialize_to_pnml ord net data names = Err e -> e = AssertionErr).
Proof.
  intros ord net data names O. split; [split|].
  - intros [toks H]. exact (serialize_there net data names ord O toks H).
  - intros H. exists (tags (pnml (kids_of net data names ord))). exact (serialize_ok net data names ord O H).
  - exact (serialize_err net data names ord).
Qed.
Print Assumptions C83_when.

(** The file does not depend on the order of hash tables if no two places and no two transitions have the same name. *)
Theorem C83_same :
  forall ord ord' net data names, any_order ord -> any_order ord' -> distinct_names net ->
  serialize_to_pnml ord net data names = serialize_to_pnml ord' net data names.
Proof. exact same_proof. Qed.
Print Assumptions C83_same.

(** Source and target of each arc are the ids of a place and a transition of the file. *)
Theorem C83_refs :
  forall names net data kids k, places_there net -> content names net data kids -> In k kids -> is_tag (str "arc") k = true ->
  exists p t, In p (filter (is_tag (str "place")) kids) /\ In t (filter (is_tag (str "transition")) kids) /\
    ((attr (str "source") k = attr (str "id") p /\ attr (str "target") k = attr (str "id") t) \/
     (attr (str "source") k = attr (str "id") t /\ attr (str "target") k = attr (str "id") p)).
Proof. exact refs_proof. Qed.
Print Assumptions C83_refs.

(** With numbers as ids all ids are there and different. *)
Theorem C83_ids :
  forall net data kids, content false net data kids -> distinct_ids net ->
  NoDup (map (attr (str "id")) kids) /\ forall k, In k kids -> attr (str "id") k <> None.
Proof. exact ids_distinct_proof. Qed.
Print Assumptions C83_ids.

(** With names as ids those of places and transitions are different exactly when the names are. *)
Theorem C83_names :
  forall net data kids, content true net data kids ->
  (NoDup (map (attr (str "id")) (filter (fun k => is_tag (str "place") k || is_tag (str "transition") k) kids)) <->
   NoDup (map snd (n_places net) ++ map tr_name (n_trans net))).
Proof. exact names_distinct_proof. Qed.
Print Assumptions C83_names.

(** Nets with the same file have the same places, transitions with data, and arcs, up to what is the id. *)
Theorem C83_same_file_names :
  forall net data net' data' kids kids', content true net data kids -> content true net' data' kids' -> tags (pnml kids) = tags (pnml kids') ->
  Permutation (map snd (n_places net)) (map snd (n_places net')) /\
  Permutation (map (fun t => (tr_name t, data (tr_id t))) (n_trans net)) (map (fun t => (tr_name t, data' (tr_id t))) (n_trans net')) /\
  Permutation (named_arcs net) (named_arcs net').
Proof. exact same_file_names_proof. Qed.
Print Assumptions C83_same_file_names.
Theorem C83_same_file_ids :
  forall net data net' data' kids kids', content false net data kids -> content false net' data' kids' -> tags (pnml kids) = tags (pnml kids') ->
  Permutation (dkeys (n_places net)) (dkeys (n_places net')) /\
  Permutation (map (fun t => (tr_id t, data (tr_id t))) (n_trans net)) (map (fun t => (tr_id t, data' (tr_id t))) (n_trans net')) /\
  Permutation (numbered_arcs net) (numbered_arcs net').
Proof. exact same_file_ids_proof. Qed.
Print Assumptions C83_same_file_ids.

(** Markings are not written. *)
Theorem C83_markings :
  forall ord places trans i f i' f' data names,
  serialize_to_pnml ord (mkNet places trans i f) data names = serialize_to_pnml ord (mkNet places trans i' f') data names.
Proof. reflexivity. Qed.
Print Assumptions C83_markings.

(** * Cases *)
Definition pn_order (k : nat) (A : Type) (l : list A) := l.
Definition pn_rev (k : nat) (A : Type) (l : list A) := rev l.
Lemma pn_order_any : any_order pn_order. Proof. intros k A l. reflexivity. Qed.
Lemma pn_rev_any : any_order pn_rev. Proof. intros k A l. apply Permutation_sym, Permutation_rev. Qed.
Definition two_net : pnet :=
  mkNet [(1%N, str "q"); (2%N, str "p<")] [mkTrans 3 (str "b") false [mkArc 11 1; mkArc 5 2] []; mkTrans 4 (str "a") true [] [mkArc 7 1]] None None.
Definition two_data (i : N) : option pystr := if N.eqb i 3 then Some (str "B&C") else None.
Example C83_case_names :
  serialize_to_pnml pn_rev two_net two_data true = Ok (tags (pnml [
    Elem (str "place") [(str "id", str "p<")] []; Elem (str "place") [(str "id", str "q")] [];
    Elem (str "transition") [(str "id", str "a")] [];
    Elem (str "transition") [(str "id", str "b")] [Elem (str "name") [] [Elem (str "text") [] [Chars (str "B&C")]]];
    Elem (str "arc") [(str "id", str "[{a}--{q}]"); (str "target", str "q"); (str "source", str "a")] [];
    Elem (str "arc") [(str "id", str "[{p<}--{b}]"); (str "source", str "p<"); (str "target", str "b")] [];
    Elem (str "arc") [(str "id", str "[{q}--{b}]"); (str "source", str "q"); (str "target", str "b")] []])).
Proof. vm_compute. reflexivity. Qed.
(** Arcs are sorted by the texts of their numbers: 11 comes before 5. *)
Example C83_case_ids :
  serialize_to_pnml pn_order two_net two_data false = Ok (tags (pnml [
    Elem (str "place") [(str "id", str "2")] []; Elem (str "place") [(str "id", str "1")] [];
    Elem (str "transition") [(str "id", str "4")] [];
    Elem (str "transition") [(str "id", str "3")] [Elem (str "name") [] [Elem (str "text") [] [Chars (str "B&C")]]];
    Elem (str "arc") [(str "id", str "7"); (str "target", str "1"); (str "source", str "4")] [];
    Elem (str "arc") [(str "id", str "11"); (str "source", str "1"); (str "target", str "3")] [];
    Elem (str "arc") [(str "id", str "5"); (str "source", str "2"); (str "target", str "3")] []])).
Proof. vm_compute. reflexivity. Qed.
Example C83_hypotheses_case : places_there two_net /\ distinct_ids two_net /\ distinct_names two_net /\
  NoDup (map snd (n_places two_net) ++ map tr_name (n_trans two_net)).
Proof.
  split; [|split; [|split; [split|]]].
  - intros a Ha. vm_compute in Ha. destruct Ha as [<-|[<-|[<-|[]]]]; vm_compute; discriminate.
  - vm_compute. repeat constructor; cbn; intuition discriminate.
  - vm_compute. repeat constructor; cbn; intuition discriminate.
  - vm_compute. repeat constructor; cbn; intuition discriminate.
  - vm_compute. repeat constructor; cbn; intuition discriminate.
Qed.
Example C83_panic_case : serialize_to_pnml pn_order (mkNet [] [mkTrans 3 (str "b") false [mkArc 5 2] []] None None) two_data false = Err AssertionErr.
Proof. reflexivity. Qed.

(** Not true without distinct names: places with the same name come in the order of the hash table. *)
Theorem C83_order_refuted :
  ~ (forall ord ord' net data names, any_order ord -> any_order ord' -> places_there net -> distinct_ids net ->
     serialize_to_pnml ord net data names = serialize_to_pnml ord' net data names).
Proof.
  intros H. specialize (H pn_order pn_rev (mkNet [(1%N, str "p"); (2%N, str "p")] [] None None) two_data false pn_order_any pn_rev_any).
  assert (K : serialize_to_pnml pn_order (mkNet [(1%N, str "p"); (2%N, str "p")] [] None None) two_data false = serialize_to_pnml pn_rev (mkNet [(1%N, str "p"); (2%N, str "p")] [] None None) two_data false).
  { apply H; [intros a []|]. vm_compute. repeat constructor; cbn; intuition discriminate. }
  vm_compute in K. discriminate.
Qed.
Print Assumptions C83_order_refuted.

(** Not true: that ids are different with names as ids if no two places and no two transitions have the same name.
    A place can have the name of a transition. *)
Theorem C83_names_refuted :
  ~ (forall net data kids, places_there net -> distinct_ids net -> distinct_names net -> content true net data kids -> NoDup (map (attr (str "id")) kids)).
Proof.
  intros H. set (net := mkNet [(1%N, str "a")] [mkTrans 2 (str "a") false [] []] None None).
  specialize (H net two_data (kids_of net two_data true pn_order)).
  assert (K : NoDup (map (attr (str "id")) (kids_of net two_data true pn_order))).
  { apply H; [intros a Ha; destruct Ha| | |apply kids_content, pn_order_any].
    - vm_compute. repeat constructor; cbn; intuition discriminate.
    - split; vm_compute; repeat constructor; cbn; intuition discriminate. }
  vm_compute in K. apply NoDup_cons_iff in K. apply (proj1 K). left. reflexivity.
Qed.
Print Assumptions C83_names_refuted.
(** Nor are ids of arcs different if all names are. *)
Theorem C83_arc_names_refuted :
  ~ (forall net data kids, places_there net -> distinct_ids net -> NoDup (map snd (n_places net) ++ map tr_name (n_trans net)) -> NoDup (named_arcs net) ->
     content true net data kids -> NoDup (map (attr (str "id")) kids)).
Proof.
  intros H. set (net := mkNet [(1%N, str "a"); (2%N, str "a}--{b")] [mkTrans 3 (str "b}--{c") false [mkArc 4 1] []; mkTrans 5 (str "c") false [mkArc 6 2] []] None None).
  specialize (H net two_data (kids_of net two_data true pn_order)).
  assert (K : NoDup (map (attr (str "id")) (kids_of net two_data true pn_order))).
  { apply H; [| | | |apply kids_content, pn_order_any].
    - intros a Ha. vm_compute in Ha. destruct Ha as [<-|[<-|[]]]; vm_compute; discriminate.
    - vm_compute. repeat constructor; cbn; intuition discriminate.
    - vm_compute. repeat constructor; cbn; intuition discriminate.
    - vm_compute. repeat constructor; cbn; intuition discriminate. }
  vm_compute in K. repeat (apply NoDup_cons_iff in K; destruct K as [? K]). match goal with H : ~ In ?x (?x :: []) |- _ => apply H; left; reflexivity end.
Qed.
Print Assumptions C83_arc_names_refuted.

(** Not true: that the names of places can be told from a file with numbers. *)
Theorem C83_place_names_refuted :
  ~ (forall ord net net' data toks, any_order ord -> places_there net -> places_there net' -> serialize_to_pnml ord net data false = Ok toks ->
     serialize_to_pnml ord net' data false = Ok toks -> Permutation (map snd (n_places net)) (map snd (n_places net'))).
Proof.
  intros H. specialize (H pn_order (mkNet [(1%N, str "p")] [] None None) (mkNet [(1%N, str "q")] [] None None) two_data _ pn_order_any (fun a (K : In a []) => match K with end) (fun a (K : In a []) => match K with end) eq_refl eq_refl).
  apply Permutation_length_1 in H. vm_compute in H. discriminate.
Qed.
Print Assumptions C83_place_names_refuted.
