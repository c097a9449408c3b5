(** Lemmas for C83: files determine their content. *)
From Coq Require Import Permutation Sorting.Sorted.
From Verif Require Import Py PyFacts HashModel XesModel XesProofs EqProofs RXesModel RXesSpec RXesProofs RInfoSpec ReplayModel PnmlModel PnmlSpec PnmlProofs.

Lemma escape_attrs_inj (l : list (pystr * pystr)) : forall l', map (fun kv => (fst kv, escape (snd kv))) l = map (fun kv => (fst kv, escape (snd kv))) l' -> l = l'.
Proof.
  induction l as [|[k v] l IH]; intros [|[k' v'] l'] H; try discriminate; [reflexivity|]. cbn [map fst snd] in H. injection H as -> H1 H2. apply escape_inj in H1. subst. f_equal. apply IH, H2.
Qed.
Lemma tags_list_inj n : forall l l' t t' r r', length (flat_map tags l) <= n -> flat_map tags l ++ PEnd t :: r = flat_map tags l' ++ PEnd t' :: r' -> l = l' /\ t = t' /\ r = r'.
Proof.
  induction n as [|n IH]; intros l l' t t' r r' Hn H.
  - destruct l as [|[tag attrs inside|text] l]; cbn [flat_map tags app length] in Hn; try lia. destruct l' as [|[tag attrs inside|text] l']; cbn [flat_map tags app] in H; try discriminate. injection H as -> ->. auto.
  - destruct l as [|[tag attrs inside|text] l].
    + destruct l' as [|[tag attrs inside|text] l']; cbn [flat_map tags app] in H; try discriminate. injection H as -> ->. auto.
    + destruct l' as [|[tag' attrs' inside'|text'] l']; cbn [flat_map tags app] in H; try discriminate. rewrite <- !app_assoc in H. cbn [app] in H. injection H as <- Ha H.
      apply escape_attrs_inj in Ha. subst attrs'. cbn [flat_map tags app length] in Hn. rewrite !app_length in Hn. cbn [length] in Hn.
      apply IH in H; [|lia]. destruct H as (<- & _ & H). apply IH in H; [|lia]. destruct H as (<- & <- & <-). auto.
    + destruct l' as [|[tag' attrs' inside'|text'] l']; cbn [flat_map tags app] in H; try discriminate. injection H as Ht H. apply escape_inj in Ht. subst text'. cbn [flat_map tags app length] in Hn. apply IH in H; [|lia]. destruct H as (<- & <- & <-). auto.
Qed.
Lemma pnml_inj kids kids' : tags (pnml kids) = tags (pnml kids') -> kids = kids'.
Proof.
  unfold pnml. intros H. cbn [tags flat_map] in H. injection H as H. rewrite !app_nil_r in H. apply app_inj_tail in H. destruct H as [H _].
  apply (tags_list_inj _ _ _ _ _ _ _ (le_n _)) in H. apply H.
Qed.

Lemma show_id_inj a b : decimal a = decimal b -> a = b.
Proof. unfold decimal. intros H. assert (E : parse_int (show_int (Z.of_N a)) = parse_int (show_int (Z.of_N b))) by (rewrite H; reflexivity). rewrite !parse_show_int in E. injection E as E. lia. Qed.

Section Content.
  Variables (names : bool) (net : pnet) (data : N -> option pystr) (kids : list xml).
  Hypothesis C : content names net data kids.

  Lemma content_arcs : exists ps ts arcs, Permutation ps (n_places net) /\ Permutation ts (n_trans net) /\ Permutation arcs (net_arcs net) /\
    kids = map (place_element names) ps ++ map (transition_element names data) ts ++ map (arc_element names net) arcs.
  Proof.
    destruct C as (ps & ts & arcs & P1 & _ & P2 & _ & F & ->). exists ps, ts, (concat arcs). split; [exact P1|]. split; [exact P2|]. split; [|reflexivity].
    apply Permutation_trans with (flat_map (fun t => arcs_in t ++ arcs_out t) ts).
    - clear -F. induction F as [|t l ts arcs (i & o & -> & P1 & _ & P2 & _) F IH]; cbn [concat flat_map]; [constructor|]. apply Permutation_app; [apply Permutation_app; assumption|exact IH].
    - apply Permutation_flat_map, P2.
  Qed.
  Lemma filter_map_all {A} (f : A -> xml) tag l : (forall x, is_tag tag (f x) = true) -> filter (is_tag tag) (map f l) = map f l.
  Proof. intros H. induction l as [|x l IH]; cbn [map filter]; [reflexivity|]. rewrite H, IH. reflexivity. Qed.
  Lemma filter_map_none {A} (f : A -> xml) tag l : (forall x, is_tag tag (f x) = false) -> filter (is_tag tag) (map f l) = [].
  Proof. intros H. induction l as [|x l IH]; cbn [map filter]; [reflexivity|]. rewrite H, IH. reflexivity. Qed.
  Lemma kinds : Permutation (filter (is_tag (str "place")) kids) (map (place_element names) (n_places net)) /\
    Permutation (filter (is_tag (str "transition")) kids) (map (transition_element names data) (n_trans net)) /\
    Permutation (filter (is_tag (str "arc")) kids) (map (arc_element names net) (net_arcs net)).
  Proof.
    destruct content_arcs as (ps & ts & arcs & P1 & P2 & P3 & ->).
    assert (A1 : forall x, is_tag (str "arc") (arc_element names net x) = true) by (intros [? ? [] ?]; reflexivity).
    assert (A2 : forall x, is_tag (str "place") (arc_element names net x) = false) by (intros [? ? [] ?]; reflexivity).
    assert (A3 : forall x, is_tag (str "transition") (arc_element names net x) = false) by (intros [? ? [] ?]; reflexivity).
    rewrite !filter_app.
    rewrite (filter_map_all (place_element names) (str "place") ps), (filter_map_none (transition_element names data) (str "place") ts), (filter_map_none (arc_element names net) (str "place") arcs) by (assumption || reflexivity).
    rewrite (filter_map_none (place_element names) (str "transition") ps), (filter_map_all (transition_element names data) (str "transition") ts), (filter_map_none (arc_element names net) (str "transition") arcs) by (assumption || reflexivity).
    rewrite (filter_map_none (place_element names) (str "arc") ps), (filter_map_none (transition_element names data) (str "arc") ts), (filter_map_all (arc_element names net) (str "arc") arcs) by (assumption || reflexivity).
    rewrite !app_nil_r. cbn [app]. split; [apply Permutation_map, P1|]. split; [apply Permutation_map, P2|apply Permutation_map, P3].
  Qed.
  Lemma kids_perm : Permutation kids (map (place_element names) (n_places net) ++ map (transition_element names data) (n_trans net) ++ map (arc_element names net) (net_arcs net)).
  Proof.
    destruct content_arcs as (ps & ts & arcs & P1 & P2 & P3 & ->). apply Permutation_app; [apply Permutation_map, P1|]. apply Permutation_app; [apply Permutation_map, P2|apply Permutation_map, P3].
  Qed.
End Content.

Lemma NoDup_map_inj {A B} (f : A -> B) l : (forall x y, f x = f y -> x = y) -> NoDup l -> NoDup (map f l).
Proof. intros H. induction 1 as [|x l Hx Hl IH]; cbn; constructor; [|exact IH]. intros K. apply in_map_iff in K. destruct K as (y & E & Hy). apply H in E. subst. auto. Qed.
Lemma NoDup_map_back {A B} (f : A -> B) l : NoDup (map f l) -> NoDup l.
Proof. induction l as [|x l IH]; cbn; intros H; [constructor|]. apply NoDup_cons_iff in H. destruct H as [H1 H2]. constructor; [|auto]. intros K. apply H1, in_map, K. Qed.
Lemma ids_distinct_proof net data kids : content false net data kids -> distinct_ids net -> NoDup (map (attr (str "id")) kids) /\ forall k, In k kids -> attr (str "id") k <> None.
Proof.
  intros C D. assert (P := kids_perm _ _ _ _ C). split.
  - apply (Permutation_NoDup (Permutation_sym (Permutation_map (attr (str "id")) P))). rewrite !map_app, !map_map.
    assert (E : map (fun x => attr (str "id") (place_element false x)) (n_places net) ++ map (fun x => attr (str "id") (transition_element false data x)) (n_trans net) ++ map (fun x => attr (str "id") (arc_element false net x)) (net_arcs net) =
                map (fun i => Some (decimal i)) (dkeys (n_places net) ++ map tr_id (n_trans net) ++ map na_id (net_arcs net))).
    { rewrite !map_app. unfold dkeys. rewrite !map_map. f_equal. f_equal. apply map_ext. intros [? ? [] ?]; reflexivity. }
    rewrite E. apply NoDup_map_inj; [|exact D]. intros x y H. injection H as H. apply show_id_inj, H.
  - intros k Hk. apply (Permutation_in _ P) in Hk. apply in_app_or in Hk. destruct Hk as [Hk|Hk]; [apply in_map_iff in Hk; destruct Hk as (p & <- & _); discriminate|].
    apply in_app_or in Hk. destruct Hk as [Hk|Hk]; apply in_map_iff in Hk; destruct Hk as (p & <- & _); [discriminate|]. destruct p as [? ? [] ?]; discriminate.
Qed.
Lemma names_distinct_proof net data kids : content true net data kids ->
  (NoDup (map (attr (str "id")) (filter (fun k => is_tag (str "place") k || is_tag (str "transition") k) kids)) <-> NoDup (map snd (n_places net) ++ map tr_name (n_trans net))).
Proof.
  intros C. destruct (content_arcs _ _ _ _ C) as (ps & ts & arcs & P1 & P2 & P3 & ->).
  assert (E : filter (fun k => is_tag (str "place") k || is_tag (str "transition") k) (map (place_element true) ps ++ map (transition_element true data) ts ++ map (arc_element true net) arcs) = map (place_element true) ps ++ map (transition_element true data) ts).
  { rewrite !filter_app. assert (F1 : forall l, filter (fun k => is_tag (str "place") k || is_tag (str "transition") k) (map (place_element true) l) = map (place_element true) l) by (induction l as [|x l IH]; [reflexivity|cbn [map filter]; rewrite IH; reflexivity]).
    assert (F2 : forall l, filter (fun k => is_tag (str "place") k || is_tag (str "transition") k) (map (transition_element true data) l) = map (transition_element true data) l) by (induction l as [|x l IH]; [reflexivity|cbn [map filter]; rewrite IH; reflexivity]).
    assert (F3 : forall l, filter (fun k => is_tag (str "place") k || is_tag (str "transition") k) (map (arc_element true net) l) = []) by (induction l as [|[? ? [] ?] l IH]; [reflexivity|cbn [map filter]; rewrite IH; reflexivity|cbn [map filter]; rewrite IH; reflexivity]).
    rewrite F1, F2, F3, app_nil_r. reflexivity. }
  rewrite E, map_app, !map_map.
  assert (E2 : map (fun x => attr (str "id") (place_element true x)) ps ++ map (fun x => attr (str "id") (transition_element true data x)) ts = map Some (map snd ps ++ map tr_name ts)) by (rewrite map_app, !map_map; reflexivity).
  rewrite E2. assert (P : Permutation (map snd ps ++ map tr_name ts) (map snd (n_places net) ++ map tr_name (n_trans net))) by (apply Permutation_app; apply Permutation_map; assumption). split; intros H.
  - apply NoDup_map_back in H. apply (Permutation_NoDup P H).
  - apply NoDup_map_inj; [congruence|]. apply (Permutation_NoDup (Permutation_sym P) H).
Qed.
Lemma refs_proof names net data kids k : places_there net -> content names net data kids -> In k kids -> is_tag (str "arc") k = true ->
  exists p t, In p (filter (is_tag (str "place")) kids) /\ In t (filter (is_tag (str "transition")) kids) /\
    ((attr (str "source") k = attr (str "id") p /\ attr (str "target") k = attr (str "id") t) \/ (attr (str "source") k = attr (str "id") t /\ attr (str "target") k = attr (str "id") p)).
Proof.
  intros Th C Hk Ht. destruct (kinds _ _ _ _ C) as (K1 & K2 & K3). assert (Ha : In k (filter (is_tag (str "arc")) kids)) by (apply filter_In; auto). apply (Permutation_in _ K3) in Ha. apply in_map_iff in Ha. destruct Ha as (a & <- & Ha).
  assert (Hp := Th a Ha). destruct (dget N.eq_dec (n_places net) (na_place a)) as [n|] eqn:E; [|congruence].
  exists (place_element names (na_place a, n)), (transition_element names data (na_trans a)). split; [apply (Permutation_in _ (Permutation_sym K1)), in_map, (dget_In N.eq_dec), E|]. split.
  - apply (Permutation_in _ (Permutation_sym K2)), in_map. apply in_flat_map in Ha. destruct Ha as (t & H1 & H2). apply in_app_or in H2. destruct H2 as [H2|H2]; apply in_map_iff in H2; destruct H2 as (b & <- & _); exact H1.
  - unfold arc_element, place_name. rewrite E. destruct (na_to a); [left|right]; destruct names; split; reflexivity.
Qed.
Lemma same_file_names_proof net data net' data' kids kids' : content true net data kids -> content true net' data' kids' -> tags (pnml kids) = tags (pnml kids') ->
  Permutation (map snd (n_places net)) (map snd (n_places net')) /\
  Permutation (map (fun t => (tr_name t, data (tr_id t))) (n_trans net)) (map (fun t => (tr_name t, data' (tr_id t))) (n_trans net')) /\
  Permutation (named_arcs net) (named_arcs net').
Proof.
  intros C C' E. apply pnml_inj in E. subst kids'. destruct (kinds _ _ _ _ C) as (A1 & A2 & A3). destruct (kinds _ _ _ _ C') as (B1 & B2 & B3).
  assert (P1 := Permutation_trans (Permutation_sym A1) B1). assert (P2 := Permutation_trans (Permutation_sym A2) B2). assert (P3 := Permutation_trans (Permutation_sym A3) B3). clear -P1 P2 P3.
  split; [|split].
  - apply (Permutation_map (fun k => match attr (str "id") k with Some s => s | None => [] end)) in P1. rewrite !map_map in P1. exact P1.
  - set (g := fun k => (match attr (str "id") k with Some s => s | None => [] end, match k with Elem _ _ [Elem _ _ [Elem _ _ [Chars d]]] => Some d | _ => None end)). apply (Permutation_map g) in P2. rewrite !map_map in P2.
    rewrite (map_ext (fun x => g (transition_element true data x)) (fun t => (tr_name t, data (tr_id t)))) in P2 by (intros t; unfold g, transition_element; cbn [attr]; destruct (data (tr_id t)); reflexivity).
    rewrite (map_ext (fun x => g (transition_element true data' x)) (fun t => (tr_name t, data' (tr_id t)))) in P2 by (intros t; unfold g, transition_element; cbn [attr]; destruct (data' (tr_id t)); reflexivity). exact P2.
  - set (f := fun k => match k with Elem _ [_; (n, x); (_, y)] _ => if str_eqb n (str "source") then (x, y, true) else (x, y, false) | _ => ([], [], true) end).
    apply (Permutation_map f) in P3. rewrite !map_map in P3. unfold named_arcs.
    rewrite (map_ext (fun x => f (arc_element true net x)) (fun a => (place_name net (na_place a), tr_name (na_trans a), na_to a))) in P3 by (intros [? ? [] ?]; reflexivity).
    rewrite (map_ext (fun x => f (arc_element true net' x)) (fun a => (place_name net' (na_place a), tr_name (na_trans a), na_to a))) in P3 by (intros [? ? [] ?]; reflexivity). exact P3.
Qed.
Lemma perm_map_inj {A B} (f : A -> B) : (forall x y, f x = f y -> x = y) -> forall l l', Permutation (map f l) (map f l') -> Permutation l l'.
Proof.
  intros H. induction l as [|x l IH]; intros l' P; cbn [map] in P.
  - apply Permutation_nil in P. destruct l'; [constructor|discriminate].
  - assert (Hx : In (f x) (map f l')) by (apply (Permutation_in _ P); left; reflexivity). apply in_map_iff in Hx. destruct Hx as (y & E & Hy). apply H in E. subst y. apply in_split in Hy. destruct Hy as (a & b & ->).
    apply Permutation_cons_app. apply IH. rewrite map_app. rewrite map_app in P. cbn [map] in P. apply Permutation_cons_app_inv in P. exact P.
Qed.
Lemma same_file_ids_proof net data net' data' kids kids' : content false net data kids -> content false net' data' kids' -> tags (pnml kids) = tags (pnml kids') ->
  Permutation (dkeys (n_places net)) (dkeys (n_places net')) /\
  Permutation (map (fun t => (tr_id t, data (tr_id t))) (n_trans net)) (map (fun t => (tr_id t, data' (tr_id t))) (n_trans net')) /\
  Permutation (numbered_arcs net) (numbered_arcs net').
Proof.
  intros C C' E. apply pnml_inj in E. subst kids'. destruct (kinds _ _ _ _ C) as (A1 & A2 & A3). destruct (kinds _ _ _ _ C') as (B1 & B2 & B3).
  assert (P1 := Permutation_trans (Permutation_sym A1) B1). assert (P2 := Permutation_trans (Permutation_sym A2) B2). assert (P3 := Permutation_trans (Permutation_sym A3) B3). clear -P1 P2 P3.
  split; [|split].
  - apply (perm_map_inj decimal show_id_inj). apply (Permutation_map (fun k => match attr (str "id") k with Some s => s | None => [] end)) in P1. unfold dkeys. rewrite !map_map in *. exact P1.
  - apply (perm_map_inj (fun p => (decimal (fst p), snd p))); [intros [a x] [b y] H; cbn in H; injection H as H ->; apply show_id_inj in H; congruence|].
    set (g := fun k => (match attr (str "id") k with Some s => s | None => [] end, match k with Elem _ _ [Elem _ _ [Elem _ _ [Chars d]]] => Some d | _ => None end)). apply (Permutation_map g) in P2. rewrite !map_map in *.
    rewrite (map_ext (fun x => g (transition_element false data x)) (fun t => (decimal (tr_id t), data (tr_id t)))) in P2 by (intros t; unfold g, transition_element; cbn [attr]; destruct (data (tr_id t)); reflexivity).
    rewrite (map_ext (fun x => g (transition_element false data' x)) (fun t => (decimal (tr_id t), data' (tr_id t)))) in P2 by (intros t; unfold g, transition_element; cbn [attr]; destruct (data' (tr_id t)); reflexivity). exact P2.
  - apply (perm_map_inj (fun x : N * N * N * bool => let '(i, p, t, b) := x in (decimal i, decimal p, decimal t, b))).
    { intros [[[i p] t] b] [[[i' p'] t'] b'] H. injection H as H1 H2 H3 ->. apply show_id_inj in H1, H2, H3. congruence. }
    set (f := fun k => match k with Elem _ [(_, i); (n, x); (_, y)] _ => if str_eqb n (str "source") then (i, x, y, true) else (i, x, y, false) | _ => ([], [], [], true) end).
    apply (Permutation_map f) in P3. unfold numbered_arcs. rewrite !map_map in *.
    rewrite (map_ext (fun x => f (arc_element false net x)) (fun a => (decimal (na_id a), decimal (na_place a), decimal (tr_id (na_trans a)), na_to a))) in P3 by (intros [? ? [] ?]; reflexivity).
    rewrite (map_ext (fun x => f (arc_element false net' x)) (fun a => (decimal (na_id a), decimal (na_place a), decimal (tr_id (na_trans a)), na_to a))) in P3 by (intros [? ? [] ?]; reflexivity). exact P3.
Qed.
Lemma same_proof ord ord' net data names : any_order ord -> any_order ord' -> distinct_names net -> serialize_to_pnml ord net data names = serialize_to_pnml ord' net data names.
Proof.
  intros O O' [D1 D2].
  assert (E1 : ordered_transitions ord net = ordered_transitions ord' net).
  { destruct (ordered_perm net ord O) as [P S]. destruct (ordered_perm net ord' O') as [P' S']. apply (keyed_unique tr_name); [|apply (Permutation_NoDup (Permutation_sym (Permutation_map tr_name P)) D2)|exact S|exact S'].
    apply (Permutation_trans P), Permutation_sym, P'. }
  assert (E2 : ps_of net ord = ps_of net ord').
  { destruct (ps_perm net ord O) as [P S]. destruct (ps_perm net ord' O') as [P' S']. apply (keyed_unique snd); [|apply (Permutation_NoDup (Permutation_sym (Permutation_map snd P)) D1)|exact S|exact S'].
    apply (Permutation_trans P), Permutation_sym, P'. }
  unfold serialize_to_pnml. rewrite !places_tags, E2. unfold write_arcs, write_transitions. rewrite E1. reflexivity.
Qed.
