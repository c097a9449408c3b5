(** Proofs for C56. *)
From Coq Require Import Permutation Sorted.
From Verif Require Import Py PyFacts XesModel LogModel HashModel TextModel TextSpec TextProofs PatternModel PatternSpec RepeatProofs EqProofs
  TreeModel TreeSpec TreeProofs ActModel ActLogModel ActLogProofs ClassModel ClassSpec ClassProofs HighModel HighSpec HighProofs HighLevelProofs
  HMutProofs PictureProofs GraphModel GraphSpec.

Section Tree.
  Context {A : Type}.
  Variable name : gnode A -> pystr.

  Lemma gnode_ind2 (P : gnode A -> Prop) : (forall a c, Forall P c -> P (GNode a c)) -> forall n, P n.
  Proof.
    intros H. fix IH 1. intros [a c]. apply H. induction c as [|x c IHc]; constructor; [apply IH|exact IHc].
  Qed.

  Lemma drawn_app a b : drawn (a ++ b) = drawn a ++ drawn b.
  Proof. apply flat_map_app. Qed.
  Lemma arrows_app a b : arrows (a ++ b) = arrows a ++ arrows b.
  Proof. apply flat_map_app. Qed.
  Lemma links_app a b : links name (a ++ b) = links name a ++ links name b.
  Proof. apply flat_map_app. Qed.

  (** What adding trees to a state adds: calls showing new nodes. *)
  Definition adds (parent : option pystr) (tops : list (gnode A)) (st st' : list pystr * list gcall) (new : list (gnode A)) : Prop :=
    fst st' = fst st ++ map name new /\
    (exists calls, snd st' = snd st ++ calls /\ drawn calls = map name new /\
       Permutation (arrows calls) (match parent with Some p => map (fun n => (name n, p)) tops | None => [] end ++ links name new)) /\
    incl new (forest tops) /\
    (NoDup (fst st) -> NoDup (fst st')) /\
    (forall n, In n tops -> In (name n) (fst st')) /\
    (forall n c, In n new -> In c (gn_children n) -> In (name c) (fst st')).

  Lemma existsb_name x l : existsb (str_eqb x) l = true <-> In x l.
  Proof.
    rewrite existsb_exists. split.
    - intros [y [Hy E]]. apply str_eqb_eq in E. subst y. exact Hy.
    - intros H. exists x. split; [exact H|]. apply str_eqb_eq. reflexivity.
  Qed.

  Lemma fold_adds parent c : Forall (fun n => forall parent st, exists new, adds parent [n] st (add_node name parent n st) new) c ->
    forall st, exists new, adds parent c st (fold_left (fun st' child => add_node name parent child st') c st) new.
  Proof.
    induction 1 as [|n c Hn Hc IH]; intros st; cbn [fold_left].
    - exists []. split; [rewrite app_nil_r; reflexivity|]. split.
      { exists []. rewrite app_nil_r. split; [reflexivity|]. split; [reflexivity|]. destruct parent; constructor. }
      split; [intros x []|]. split; [auto|]. split; [intros n []|intros n x []].
    - destruct (Hn parent st) as [new1 (E1 & (calls1 & C1 & D1 & P1) & I1 & N1 & T1 & K1)].
      destruct (IH (add_node name parent n st)) as [new2 (E2 & (calls2 & C2 & D2 & P2) & I2 & N2 & T2 & K2)].
      exists (new1 ++ new2). split; [rewrite E2, E1, map_app, app_assoc; reflexivity|]. split; [|split; [|split; [|split]]].
      + exists (calls1 ++ calls2). split; [rewrite C2, C1, app_assoc; reflexivity|].
        split; [rewrite drawn_app, D1, D2, map_app; reflexivity|].
        rewrite arrows_app, links_app. rewrite P1, P2. destruct parent as [p|]; cbn [map app].
        * apply perm_skip. rewrite !app_assoc. apply Permutation_app_tail. apply Permutation_app_comm.
        * reflexivity.
      + unfold forest in *. cbn [flat_map] in *. rewrite app_nil_r in I1. apply incl_app; [apply incl_appl; exact I1|apply incl_appr; exact I2].
      + auto.
      + intros x [<-|Hx]; [|auto]. rewrite E2. apply in_or_app. left. apply T1. left. reflexivity.
      + intros x y Hx Hy. apply in_app_or in Hx. destruct Hx as [Hx|Hx]; [|eauto]. rewrite E2. apply in_or_app. left. eauto.
  Qed.

  Lemma add_node_adds n : forall parent st, exists new, adds parent [n] st (add_node name parent n st) new.
  Proof.
    induction n as [a c IH] using gnode_ind2. intros parent st. cbn [add_node].
    set (nm := name (GNode a c)). destruct (existsb (str_eqb nm) (fst st)) eqn:E.
    - apply existsb_name in E. exists []. unfold adds. cbn [fst snd map]. rewrite app_nil_r. split; [reflexivity|]. split.
      { exists (edge_to nm parent). split; [reflexivity|]. destruct parent; split; constructor; constructor. }
      split; [intros x []|]. split; [auto|]. split; [intros n [<-|[]]; exact E|intros n x []].
    - assert (Hnm : ~ In nm (fst st)) by (intros X; apply existsb_name in X; rewrite X in E; discriminate E).
      destruct (fold_adds (Some nm) c IH (fst st ++ [nm], snd st ++ edge_to nm parent ++ [Node nm])) as [new (E1 & (calls & C1 & D1 & P1) & I1 & N1 & T1 & K1)].
      cbn [fst snd] in E1, C1, N1. exists (GNode a c :: new). unfold adds.
      split; [rewrite E1, <- app_assoc; reflexivity|]. split; [|split; [|split; [|split]]].
      + exists ((edge_to nm parent ++ [Node nm]) ++ calls). split; [rewrite C1, <- app_assoc; reflexivity|].
        rewrite !drawn_app, !arrows_app, D1, P1. destruct parent as [p|]; cbn [edge_to drawn arrows flat_map app map]; (split; [reflexivity|]);
        cbn [links flat_map gn_children]; fold nm; reflexivity.
      + unfold forest in *. cbn [flat_map members]. rewrite app_nil_r. intros x [<-|Hx]; [left; reflexivity|right; apply I1; exact Hx].
      + intros Hn. apply N1. apply (Permutation_NoDup (Permutation_cons_append _ _)). constructor; assumption.
      + intros x [<-|[]]. rewrite E1. apply in_or_app. left. apply in_or_app. right. left. reflexivity.
      + intros x y [<-|Hx] Hy; [apply T1; exact Hy|eauto].
  Qed.

  Lemma build_shows tops add_root :
    exists shown, closed_choice name tops shown /\ shows name tops add_root shown (build_graph name tops add_root).
  Proof.
    unfold build_graph. set (root := if add_root then Some (str "root") else None).
    destruct (fold_adds root tops) with (st := (@nil pystr, @nil gcall)) as [new (E1 & (calls & C1 & D1 & P1) & I1 & N1 & T1 & K1)].
    { apply Forall_forall. intros n _. apply add_node_adds. }
    cbn [fst snd app] in *. rewrite E1 in *. exists new. split.
    - split; [apply N1; constructor|]. split; [exact I1|]. split; [exact T1|exact K1].
    - rewrite C1. split; [exact D1|]. unfold to_root. subst root. destruct add_root; exact P1.
  Qed.

  (** With pairwise different names every node is new. *)
  Definition adds_all (n : gnode A) : Prop := forall parent st,
    NoDup (fst st ++ map name (members n)) ->
    fst (add_node name parent n st) = fst st ++ map name (members n) /\
    drawn (snd (add_node name parent n st)) = drawn (snd st) ++ map name (members n).
  Lemma fold_adds_all parent c : Forall adds_all c -> forall st, NoDup (fst st ++ map name (flat_map members c)) ->
    fst (fold_left (fun st' child => add_node name parent child st') c st) = fst st ++ map name (flat_map members c) /\
    drawn (snd (fold_left (fun st' child => add_node name parent child st') c st)) = drawn (snd st) ++ map name (flat_map members c).
  Proof.
    induction 1 as [|n c Hn Hc IH]; intros st HN; cbn [fold_left flat_map map] in *.
    - rewrite !app_nil_r. split; reflexivity.
    - rewrite map_app, app_assoc in HN. destruct (Hn parent st (HMutProofs.NoDup_app_l _ _ HN)) as [E1 D1].
      destruct (IH (add_node name parent n st)) as [E2 D2]; [rewrite E1; exact HN|].
      rewrite E2, E1, D2, D1, map_app, !app_assoc. split; reflexivity.
  Qed.
  Lemma add_node_all n : adds_all n.
  Proof.
    induction n as [a c IH] using gnode_ind2. intros parent st HN. cbn [members map] in *. cbn [add_node].
    set (nm := name (GNode a c)) in *. destruct (existsb (str_eqb nm) (fst st)) eqn:E.
    - exfalso. apply existsb_name in E. apply NoDup_remove_2 in HN. apply HN. apply in_or_app. left. exact E.
    - destruct (fold_adds_all (Some nm) c IH (fst st ++ [nm], snd st ++ edge_to nm parent ++ [Node nm])) as [E1 D1].
      { cbn [fst]. rewrite <- app_assoc. exact HN. }
      cbn [fst snd] in E1, D1. rewrite E1, D1, <- !app_assoc, !drawn_app. split; [reflexivity|].
      rewrite <- app_assoc. f_equal. destruct parent; reflexivity.
  Qed.
  Lemma build_all tops add_root : NoDup (map name (forest tops)) -> drawn (build_graph name tops add_root) = map name (forest tops).
  Proof.
    intros HN. unfold build_graph. apply (fold_adds_all _ tops) with (st := ([], [])); [|exact HN].
    apply Forall_forall. intros n _. apply add_node_all.
  Qed.

  Lemma map_name_eq (l shown : list (gnode A)) : NoDup (map name l) -> incl shown l -> map name shown = map name l -> shown = l.
  Proof.
    intros HN. revert shown. enough (H : forall shown k, NoDup (map name l) -> incl shown l -> incl k l -> map name shown = map name k -> shown = k).
    { intros shown Hi E. apply H; auto. apply incl_refl. }
    assert (Hinj : forall x y, In x l -> In y l -> name x = name y -> x = y).
    { clear -HN. induction l as [|z l IH]; intros x y Hx Hy E; [destruct Hx|]. cbn [map] in HN. inversion HN; subst.
      destruct Hx as [<-|Hx], Hy as [<-|Hy]; auto.
      - exfalso. apply H1. rewrite E. apply in_map. exact Hy.
      - exfalso. apply H1. rewrite <- E. apply in_map. exact Hx. }
    induction shown as [|x shown IH]; intros k HN' Hi Hk E; destruct k as [|y k]; cbn [map] in E; try discriminate E; [reflexivity|].
    injection E as E1 E2. f_equal.
    - apply Hinj; [apply Hi; left; reflexivity|apply Hk; left; reflexivity|exact E1].
    - apply IH; auto; intros z Hz; [apply Hi|apply Hk]; right; exact Hz.
  Qed.

  Lemma graph_exact_proof tops add_root : NoDup (map name (forest tops)) ->
    shows name tops add_root (forest tops) (build_graph name tops add_root).
  Proof.
    intros HN. destruct (build_shows tops add_root) as [shown [[_ [Hi _]] [HD HP]]].
    rewrite (build_all tops add_root HN) in HD. rewrite (map_name_eq (forest tops) shown HN Hi (eq_sym HD)) in *.
    split; [apply build_all; exact HN|exact HP].
  Qed.
End Tree.

(** A graph is determined, up to the order of its lines, by its nodes and edges. *)
Lemma calls_split g : Permutation g (map Node (drawn g) ++ map (fun e => Edge (fst e) (snd e)) (arrows g)).
Proof.
  induction g as [|[t h|n] g IH]; cbn [drawn arrows flat_map app map]; [constructor| |].
  - rewrite IH at 1. apply Permutation_middle.
  - apply perm_skip. exact IH.
Qed.
Lemma calls_perm g g' : Permutation (drawn g) (drawn g') -> Permutation (arrows g) (arrows g') -> Permutation g g'.
Proof.
  intros H1 H2. rewrite (calls_split g), (calls_split g'). apply Permutation_app; apply Permutation_map; assumption.
Qed.

(** Names of activities. *)
Lemma str_join_joined sep l : str_join sep l = joined sep l.
Proof. induction l as [|x l IH]; [reflexivity|]. cbn [str_join joined]. destruct l; [reflexivity|]. rewrite IH. reflexivity. Qed.
Lemma occurs_in sep s i c : occurs_at sep s i -> In c sep -> In c (skipn i s).
Proof.
  intros [a [b [-> <-]]] H. rewrite skipn_app, skipn_all, Nat.sub_diag. cbn. apply in_or_app. left. exact H.
Qed.
Lemma occurs_head c sep s i : occurs_at (c :: sep) s i -> nth_error s i = Some c.
Proof. intros [a [b [-> <-]]]. rewrite nth_error_app2, Nat.sub_diag by lia. reflexivity. Qed.
Lemma bare_splittable l : l <> [] -> (forall x, In x l -> ~ In 58%N x) -> splittable (str "::") l.
Proof.
  induction l as [|x l IH]; intros Hl Hb; [congruence|]. cbn [splittable].
  assert (Hx : ~ In 58%N x) by (apply Hb; left; reflexivity). destruct l as [|y l].
  - intros [i Hi]. apply occurs_head in Hi. apply nth_error_In in Hi. exact (Hx Hi).
  - split; [|apply IH; [discriminate|intros z Hz; apply Hb; right; exact Hz]].
    intros i Hi Ho. apply occurs_head in Ho. rewrite nth_error_app1 in Ho by exact Hi. apply nth_error_In in Ho. exact (Hx Ho).
Qed.
Lemma joined_nil l : (forall x, In x l -> x <> []) -> joined (str "::") l = [] -> l = [].
Proof.
  destruct l as [|x l]; [reflexivity|]. intros H E. exfalso. destruct l as [|y l]; [apply (H x); [left; reflexivity|exact E]|].
  rewrite joined_cons2 in E. apply app_eq_nil in E. destruct E as [E _]. apply (H x); [left; reflexivity|exact E].
Qed.
Lemma names_joined l m : (forall x, In x l -> bare x) -> (forall x, In x m -> bare x) ->
  str_join (str "::") l = str_join (str "::") m -> l = m.
Proof.
  intros Hl Hm E. rewrite !str_join_joined in E. destruct l as [|x l].
  - symmetry. apply joined_nil; [intros y Hy; apply Hm; exact Hy|]. symmetry. exact E.
  - destruct m as [|y m]; [apply joined_nil; [intros z Hz; apply Hl; exact Hz|exact E]|].
    rewrite <- (split_joined (str "::") (x :: l)), <- (split_joined (str "::") (y :: m)), E; try reflexivity; try discriminate;
      apply bare_splittable; try discriminate; intros z Hz; [apply Hm|apply Hl]; exact Hz.
Qed.

Section Discovered.
  Variables (ce : event -> result pystr) (level : Z) (l : eventlog).
  Hypothesis plain : forall t e c, In t (l_traces l) -> In e (t_events t) -> ce e = Ok c -> bare c.

  Lemma mapM_bare t cs : In t (l_traces l) -> mapM ce (t_events t) = Ok cs -> forall c, In c cs -> bare c.
  Proof.
    intros Ht H c Hc. apply mapM_ok_inv in H. assert (Hp : forall e c, In e (t_events t) -> ce e = Ok c -> bare c) by eauto.
    clear Ht plain. induction H as [|e x es cs He H IH]; [destruct Hc|]. destruct Hc as [<-|Hc].
    - apply (Hp e); [left; reflexivity|exact He].
    - apply IH; [exact Hc|]. intros e' c' Hi. apply Hp. right. exact Hi.
  Qed.
  Lemma piece_In {A} (x : A) s a n : In x (piece s a n) -> In x s.
  Proof. unfold piece. intros H. rewrite <- (firstn_skipn a s). apply in_or_app. right. rewrite <- (firstn_skipn n (skipn a s)). apply in_or_app. left. exact H. Qed.

  Lemma stands_names n : stands_for ce l n -> exists names, nd_name (an_data n) = str_join (str "::") names /\ (forall x, In x names -> bare x) /\
    exists t cs, nth_error (l_traces l) (rs_trace_index (nd_repeat_set (an_data n))) = Some t /\ mapM ce (t_events t) = Ok cs /\
      forall s, In s names <-> In s (piece cs (rs_first_pos (nd_repeat_set (an_data n))) (rs_length (nd_repeat_set (an_data n)))).
  Proof.
    intros [t [cs [names [H1 [H2 [_ [_ [_ [H3 H4]]]]]]]]]. exists names. split; [exact H4|]. split; [|eauto 8].
    intros x Hx. apply H3 in Hx. apply piece_In in Hx. eapply mapM_bare; eauto. eapply nth_error_In. exact H1.
  Qed.
  Lemma same_name_same_classes hs n m : hashes_traces ce l = Ok hs -> stands_for ce l n -> stands_for ce l m ->
    nd_name (an_data n) = nd_name (an_data m) ->
    same_set (classes hs (nd_repeat_set (an_data n))) (classes hs (nd_repeat_set (an_data m))).
  Proof.
    intros Hh Hn Hm E. destruct (stands_names n Hn) as [ns [E1 [B1 [t [cs [T1 [C1 I1]]]]]]]. destruct (stands_names m Hm) as [ms [E2 [B2 [u [ds [T2 [C2 I2]]]]]]].
    rewrite E1, E2 in E. apply names_joined in E; [|exact B1|exact B2]. subst ms.
    destruct (hashes_at _ _ _ _ _ Hh T1) as [cs' [C1' K1]]. destruct (hashes_at _ _ _ _ _ Hh T2) as [ds' [C2' K2]].
    rewrite C1 in C1'. injection C1' as <-. rewrite C2 in C2'. injection C2' as <-.
    unfold classes. rewrite (nth_error_nth _ _ [] K1), (nth_error_nth _ _ [] K2), !piece_map. intros h.
    rewrite !in_map_iff. split; intros [c [<- Hc]]; exists c; (split; [reflexivity|]); [apply I2, I1|apply I1, I2]; exact Hc.
  Qed.

  Lemma discovered_names hs patterns g F g' : hashes_traces ce l = Ok hs ->
    activities_tree ce level l (create_repeat_sets hs patterns) g = Ok (F, g') -> NoDup (map (fun n => nd_name (an_data n)) (everywhere F)).
  Proof.
    intros Hh H. unfold activities_tree in H. rewrite Hh in H. cbn [bind] in H. apply bind_ok in H. destruct H as [ns [H2 H]]. injection H as <- _.
    destruct (nodes_stand _ _ _ _ Hh _ _ _ H2) as [_ [I2 I3]].
    pose proof (Permutation_map (fun p => nd_name (fst p)) (tree_sources_proof ns)) as P. rewrite !map_map in P.
    eapply Permutation_NoDup; [apply Permutation_sym; exact P|]. cbn [fst].
    destruct (repeat_sets_distinct_proof hs patterns) as [pl [E [Hi Hd]]]. rewrite E in I2.
    apply NoDup_nth_error. intros i j Hij Ejk. rewrite map_length in Hij.
    destruct (nth_error ns i) as [a|] eqn:Ea; [|apply nth_error_None in Ea; lia].
    destruct (nth_error ns j) as [b|] eqn:Eb; [|rewrite !nth_error_map, Ea, Eb in Ejk; discriminate Ejk].
    rewrite !nth_error_map, Ea, Eb in Ejk. cbn [option_map] in Ejk. injection Ejk as Ejk.
    destruct (Nat.eq_dec i j) as [|Hne]; [assumption|exfalso].
    assert (Ha : nth_error (map fst pl) i = Some (nd_repeat_set (rn_data a))) by (rewrite <- I2, nth_error_map, Ea; reflexivity).
    assert (Hb : nth_error (map fst pl) j = Some (nd_repeat_set (rn_data b))) by (rewrite <- I2, nth_error_map, Eb; reflexivity).
    rewrite nth_error_map in Ha, Hb. destruct (nth_error pl i) as [x|] eqn:Ex; [|discriminate Ha]. destruct (nth_error pl j) as [y|] eqn:Ey; [|discriminate Hb].
    cbn [option_map] in Ha, Hb. injection Ha as Ha. injection Hb as Hb.
    apply (Hd i j x y Hne Ex Ey).
    rewrite (proj2 (pattern_classes hs patterns x (Hi x (nth_error_In _ _ Ex)))), (proj2 (pattern_classes hs patterns y (Hi y (nth_error_In _ _ Ey)))), Ha, Hb.
    apply (same_name_same_classes hs (ANode (rn_data a) (rn_set a) []) (ANode (rn_data b) (rn_set b) []) Hh); [| |exact Ejk];
      apply I3; eapply nth_error_In; eassumption.
  Qed.
End Discovered.

Lemma members_of_activity a : members (of_activity a) = map of_activity (nodes_of a).
Proof.
  revert a. fix IH 1. intros [d s c]. cbn [of_activity members nodes_of map]. f_equal.
  induction c as [|x c IHc]; [reflexivity|]. cbn [map flat_map]. rewrite IH, IHc, map_app. reflexivity.
Qed.
Lemma forest_of_activities F : forest (map of_activity F) = map of_activity (everywhere F).
Proof.
  unfold forest, everywhere. induction F as [|a F IH]; [reflexivity|]. cbn [map flat_map]. rewrite members_of_activity, IH, map_app. reflexivity.
Qed.
Lemma of_activity_data a : gn_data (of_activity a) = an_data a.
Proof. destruct a; reflexivity. Qed.

Lemma create_name_joined names : (forall x, In x names -> bare x) ->
  str_join (str "
") (split_go activity_name_sep (str_join (str "::") names) 0 []) = joined (str "
") names.
Proof.
  intros H. rewrite !str_join_joined. destruct names as [|x names]; [reflexivity|].
  change activity_name_sep with (str "::"). rewrite split_joined; [reflexivity|discriminate|].
  apply bare_splittable; [discriminate|]. intros y Hy. apply H. exact Hy.
Qed.
Lemma legible_joined l m : (forall x, In x l -> legible x) -> (forall x, In x m -> legible x) ->
  joined (str "
") l = joined (str "
") m -> l = m.
Proof.
  assert (Hnil : forall l, (forall x, In x l -> legible x) -> joined (str "
") l = [] -> l = []).
  { intros k Hk E. destruct k as [|x k]; [reflexivity|]. exfalso. assert (Hx : x <> []) by (apply Hk; left; reflexivity). destruct k as [|y k]; [exact (Hx E)|].
    rewrite joined_cons2 in E. apply app_eq_nil in E. apply Hx. apply E. }
  intros Hl Hm E. destruct l as [|x l]; [symmetry; apply Hnil; [exact Hm|symmetry; exact E]|].
  destruct m as [|y m]; [apply Hnil; [exact Hl|exact E]|].
  rewrite <- (split_joined (str "
") (x :: l)), <- (split_joined (str "
") (y :: m)), E; try reflexivity; try discriminate;
    apply splittable_single; (split; [discriminate|]); intros z Hz; [apply Hm|apply Hl]; exact Hz.
Qed.
Lemma all_classes_weaken (P Q : pystr -> Prop) ce l : (forall c, P c -> Q c) -> all_classes P ce l -> all_classes Q ce l.
Proof. unfold all_classes. eauto. Qed.

Section DiscoveredGraph.
  Variables (ce : event -> result pystr) (level : Z) (l : eventlog) (hs : list (list N)) (patterns : list (list sub_array)).
  Variables (g g' : globals) (F : list (anode ndata)).
  Hypothesis Hh : hashes_traces ce l = Ok hs.
  Hypothesis HF : activities_tree ce level l (create_repeat_sets hs patterns) g = Ok (F, g').

  Lemma names_forest : all_classes bare ce l -> NoDup (map activity_node_name (forest (map of_activity F))).
  Proof.
    intros Hb. rewrite forest_of_activities, map_map. erewrite map_ext; [exact (discovered_names ce level l Hb hs patterns g F g' Hh HF)|].
    intros a. unfold activity_node_name. rewrite of_activity_data. reflexivity.
  Qed.
  Lemma count_forest : length (forest (map of_activity F)) = length (create_repeat_sets hs patterns).
  Proof.
    rewrite forest_of_activities, map_length. destruct (tree_stands _ _ _ _ _ _ _ HF) as [_ [_ [_ [P _]]]].
    apply Permutation_length in P. rewrite map_length in P. exact P.
  Qed.
  Lemma default_graph add_root : all_classes bare ce l ->
    shows activity_node_name (map of_activity F) add_root (map of_activity (everywhere F)) (build_graph activity_node_name (map of_activity F) add_root).
  Proof. intros Hb. rewrite <- forest_of_activities. apply graph_exact_proof. apply names_forest. exact Hb. Qed.

  Lemma NoDup_map_inj {A B C} (f : A -> B) (h : A -> C) (k : list A) : NoDup (map f k) ->
    (forall x y, In x k -> In y k -> h x = h y -> f x = f y) -> NoDup (map h k).
  Proof.
    induction k as [|x k IH]; intros HN Hi; cbn [map] in *; [constructor|]. inversion HN; subst. constructor.
    - intros X. apply in_map_iff in X. destruct X as [y [Ey Hy]]. apply H1. rewrite <- (Hi y x); [apply in_map; exact Hy|right; exact Hy|left; reflexivity|exact Ey].
    - apply IH; [assumption|]. intros a b Ha Hb. apply Hi; right; assumption.
  Qed.
  Lemma drawn_graph add_root : all_classes legible ce l ->
    shows (create_name false) (map of_activity F) add_root (map of_activity (everywhere F)) (draw_activity_graph F false add_root).
  Proof.
    intros Hb. assert (Hb' : all_classes bare ce l) by (eapply all_classes_weaken; [|exact Hb]; intros c [H _]; exact H).
    rewrite <- forest_of_activities. apply graph_exact_proof. eapply NoDup_map_inj; [exact (names_forest Hb')|].
    rewrite forest_of_activities. intros x y Hx Hy E. apply in_map_iff in Hx. apply in_map_iff in Hy.
    destruct Hx as [a [<- Ha]], Hy as [b [<- Hb2]].
    destruct (tree_stands _ _ _ _ _ _ _ HF) as [_ [_ [_ [_ HS]]]].
    assert (Hl : forall n, stands_for ce l n -> exists names, nd_name (an_data n) = str_join (str "::") names /\ forall z, In z names -> legible z).
    { intros n [t [cs [names [H1 [H2 [_ [_ [_ [H3 H4]]]]]]]]]. exists names. split; [exact H4|]. intros z Hz. apply H3 in Hz. apply piece_In in Hz.
      apply mapM_ok_inv in H2. apply nth_error_In in H1. clear -H1 H2 Hz Hb.
      assert (K : forall e c, In e (t_events t) -> ce e = Ok c -> legible c) by (intros e c He; exact (Hb t e c H1 He)). clear H1 Hb.
      induction H2 as [|e x es cs He H IH]; [destruct Hz|]. destruct Hz as [<-|Hz]; [apply (K e); [left; reflexivity|exact He]|].
      apply IH; [exact Hz|]. intros e' c' Hi. apply K. right. exact Hi. }
    destruct (Hl a) as [na [Ea La]]; [apply HS; exact Ha|]. destruct (Hl b) as [nb [Eb Lb]]; [apply HS; exact Hb2|].
    unfold activity_node_name, create_name in *. rewrite !of_activity_data in *. rewrite Ea, Eb in *.
    rewrite (create_name_joined na), (create_name_joined nb) in E by (intros z Hz; first [apply La; exact Hz|apply Lb; exact Hz]). rewrite (legible_joined na nb La Lb E). reflexivity.
  Qed.
  Lemma hashed_graph add_root : all_classes bare ce l ->
    (forall a b, In a (everywhere F) -> In b (everywhere F) -> string_poly_hash (nd_name (an_data a)) = string_poly_hash (nd_name (an_data b)) -> nd_name (an_data a) = nd_name (an_data b)) ->
    shows (create_name true) (map of_activity F) add_root (map of_activity (everywhere F)) (draw_activity_graph F true add_root).
  Proof.
    intros Hb Hinj. rewrite <- forest_of_activities. apply graph_exact_proof. eapply NoDup_map_inj; [exact (names_forest Hb)|].
    rewrite forest_of_activities. intros x y Hx Hy E. apply in_map_iff in Hx. apply in_map_iff in Hy.
    destruct Hx as [a [<- Ha]], Hy as [b [<- Hb2]]. unfold create_name, activity_node_name in *. rewrite !of_activity_data in *.
    apply show_int_inj in E. apply Hinj; [assumption|assumption|]. lia.
  Qed.
End DiscoveredGraph.

(** Trees of classes. *)
Fixpoint cmembers (n : class_node) : list class_node := match n with CNode _ c => n :: flat_map cmembers c end.
Lemma members_of_class n : members (of_class n) = map of_class (cmembers n).
Proof.
  revert n. fix IH 1. intros [x c]. cbn [of_class members cmembers map]. f_equal.
  induction c as [|y c IHc]; [reflexivity|]. cbn [map flat_map]. rewrite IH, IHc, map_app. reflexivity.
Qed.
Lemma forest_of_classes F : forest (map of_class F) = map of_class (flat_map cmembers F).
Proof. unfold forest. induction F as [|a F IH]; [reflexivity|]. cbn [map flat_map]. rewrite members_of_class, IH, map_app. reflexivity. Qed.
Lemma cmembers_layers F : Permutation (flat_map cmembers F) (F ++ flat_map cmembers (flat_map cn_children F)).
Proof.
  induction F as [|[x c] F IH]; [constructor|]. cbn [flat_map cmembers app cn_children]. apply perm_skip. rewrite IH, flat_map_app.
  rewrite !app_assoc. apply Permutation_app_tail. apply Permutation_app_comm.
Qed.
Lemma all_layers k : forall roots, (forall p, In p (level k roots) -> cn_children p = []) ->
  Permutation (flat_map cmembers roots) (flat_map (fun j => level j roots) (seq 0 (S k))).
Proof.
  induction k as [|k IH]; intros roots H.
  - cbn [seq flat_map level]. rewrite app_nil_r. rewrite cmembers_layers.
    assert (E : flat_map cn_children roots = []) by (cbn [level] in H; clear -H; induction roots as [|p r IH]; [reflexivity|]; cbn [flat_map]; rewrite (H p) by (left; reflexivity); apply IH; intros q Hq; apply H; right; exact Hq).
    rewrite E. cbn [flat_map]. rewrite app_nil_r. reflexivity.
  - rewrite cmembers_layers. change (seq 0 (S (S k))) with (0 :: seq 1 (S k)). cbn [flat_map level]. apply Permutation_app_head.
    rewrite (IH (flat_map cn_children roots)) by exact H. rewrite <- seq_shift. clear. induction (seq 0 (S k)) as [|j r IHr]; [constructor|].
    cbn [flat_map map level]. apply Permutation_app_head. exact IHr.
Qed.
Lemma NoDup_flat_map_layers {A} (f : nat -> list A) ks : NoDup ks -> (forall k, In k ks -> NoDup (f k)) ->
  (forall i j x, In i ks -> In j ks -> In x (f i) -> In x (f j) -> i = j) -> NoDup (flat_map f ks).
Proof.
  induction ks as [|k ks IH]; intros HN H1 H2; [constructor|]. cbn [flat_map]. inversion HN; subst. apply SplitProofs.NoDup_app.
  - apply H1. left. reflexivity.
  - apply IH; [assumption|intros j Hj; apply H1; right; exact Hj|]. intros i j x Hi Hj. apply H2; right; assumption.
  - intros x Hx Hy. apply in_flat_map in Hy. destruct Hy as [j [Hj Hy]]. assert (k = j) by (apply (H2 k j x); [left; reflexivity|right; exact Hj|exact Hx|exact Hy]). subst j. contradiction.
Qed.
Lemma NoDup_flat_map_part {A B C} (f : A -> list B) (h : B -> C) k x : NoDup (map h (flat_map f k)) -> In x k -> NoDup (map h (f x)).
Proof.
  induction k as [|y k IH]; intros HN Hx; [destruct Hx|]. cbn [flat_map] in HN. rewrite map_app in HN. destruct Hx as [<-|Hx].
  - eapply NoDup_app_l. exact HN.
  - apply IH; [|exact Hx]. eapply NoDup_app_r. exact HN.
Qed.
Lemma level_S d roots : level (S d) roots = flat_map cn_children (level d roots).
Proof. revert roots. induction d as [|d IH]; intros roots; [reflexivity|]. cbn [level] in *. apply IH. Qed.
Lemma of_class_name n : class_node_name (of_class n) = cn_name n.
Proof. destruct n; reflexivity. Qed.
Lemma of_class_children n : gn_children (of_class n) = map of_class (cn_children n).
Proof. destruct n; reflexivity. Qed.

Lemma class_graph_proof order : (forall l, Permutation (order l) l) -> forall log exts roots add_root,
  build_class_tree order log exts = Ok roots -> layers_apart log exts ->
  let g := build_event_class_graph roots add_root in
  NoDup (drawn g) /\ (forall m, In m (drawn g) <-> exists j, j <= length exts /\ class_at log exts j m) /\
  NoDup (arrows g) /\
  (forall a b, In (a, b) (arrows g) <->
     (add_root = true /\ b = str "root" /\ class_at log exts (length exts) a) \/
     exists j ex, nth_error exts j = Some ex /\ class_at log exts j a /\ ex a = Ok b).
Proof.
  intros Horder log exts roots add_root Hb Hap g. set (k := length exts) in *.
  destruct (tree_proof order Horder log exts roots Hb) as [HL [HC HE]]. fold k in HL, HC, HE.
  assert (HP := all_layers k roots HE).
  assert (Hname : forall d m, d <= k -> In m (names_of (level d roots)) <-> class_at log exts (k - d) m).
  { intros d m Hd. destruct (HL d Hd) as [_ H]. rewrite H. reflexivity. }
  assert (HN : NoDup (map class_node_name (forest (map of_class roots)))).
  { rewrite forest_of_classes, map_map. rewrite (map_ext _ cn_name) by apply of_class_name.
    eapply Permutation_NoDup; [apply Permutation_sym, Permutation_map; exact HP|].
    rewrite flat_map_concat_map, concat_map, map_map, <- flat_map_concat_map.
    apply NoDup_flat_map_layers; [apply seq_NoDup|intros d Hd; apply in_seq in Hd; apply HL; lia|].
    intros i j x Hi Hj Hx Hy. apply in_seq in Hi. apply in_seq in Hj. apply Hname in Hx; [|lia]. apply Hname in Hy; [|lia].
    assert (k - i = k - j) by (eapply Hap; [| |exact Hx|exact Hy]; unfold k; lia). lia. }
  destruct (graph_exact_proof class_node_name (map of_class roots) add_root HN) as [HD HA].
  change (build_graph class_node_name (map of_class roots) add_root) with g in HD, HA.
  assert (HDn : forall m, In m (drawn g) <-> exists j, j <= k /\ class_at log exts j m).
  { intros m. rewrite HD, forest_of_classes, map_map, (map_ext _ cn_name) by apply of_class_name.
    split.
    - intros H. eapply Permutation_in in H; [|apply Permutation_map; exact HP]. apply in_map_iff in H. destruct H as [n [<- H]].
      apply in_flat_map in H. destruct H as [d [Hd H]]. apply in_seq in Hd. exists (k - d). split; [lia|]. apply Hname; [lia|]. apply in_map. exact H.
    - intros [j [Hj H]]. replace j with (k - (k - j)) in H by lia. apply Hname in H; [|lia]. apply in_map_iff in H. destruct H as [n [<- H]].
      eapply Permutation_in; [apply Permutation_sym, Permutation_map; exact HP|]. apply in_map. apply in_flat_map. exists (k - j). split; [apply in_seq; lia|exact H]. }
  set (links' := flat_map (fun p => map (fun c => (cn_name c, cn_name p)) (cn_children p)) (flat_map cmembers roots)).
  assert (EL : links class_node_name (forest (map of_class roots)) = links').
  { unfold links, links'. rewrite forest_of_classes. rewrite !flat_map_concat_map, map_map. f_equal. apply map_ext. intros p.
    rewrite of_class_children, map_map. apply map_ext. intros c. rewrite !of_class_name. reflexivity. }
  assert (ET : to_root class_node_name (map of_class roots) add_root = if add_root then map (fun n => (cn_name n, str "root")) roots else []).
  { unfold to_root. destruct add_root; [|reflexivity]. rewrite map_map. apply map_ext. intros n. rewrite of_class_name. reflexivity. }
  rewrite EL, ET in HA.
  assert (Hlink : forall a b, In (a, b) links' <-> exists d p c, d < k /\ In p (level d roots) /\ In c (cn_children p) /\ a = cn_name c /\ b = cn_name p).
  { intros a b. unfold links'. rewrite in_flat_map. split.
    - intros [p [Hp H]]. apply in_map_iff in H. destruct H as [c [E Hc]]. injection E as <- <-. eapply Permutation_in in Hp; [|exact HP].
      apply in_flat_map in Hp. destruct Hp as [d [Hd Hp]]. apply in_seq in Hd. destruct (Nat.eq_dec d k) as [->|Hne]; [rewrite (HE p Hp) in Hc; destruct Hc|].
      exists d, p, c. repeat split; auto; lia.
    - intros [d [p [c [Hd [Hp [Hc [-> ->]]]]]]]. exists p. split; [|apply in_map_iff; exists c; auto].
      eapply Permutation_in; [apply Permutation_sym; exact HP|]. apply in_flat_map. exists d. split; [apply in_seq; lia|exact Hp]. }
  split; [rewrite HD; exact HN|]. split; [exact HDn|]. split.
  - eapply Permutation_NoDup; [apply Permutation_sym; exact HA|]. apply SplitProofs.NoDup_app.
    + destruct add_root; [|constructor]. apply (NoDup_map_inj cn_name); [apply (HL 0); lia|]. intros x y _ _ E. injection E as E. exact E.
    + unfold links'. assert (HQ := Permutation_map cn_name HP).
      assert (HM : NoDup (map cn_name (flat_map cmembers roots))).
      { rewrite forest_of_classes, map_map, (map_ext _ cn_name) in HN by apply of_class_name. exact HN. }
      assert (HK : forall p, In p (flat_map cmembers roots) -> NoDup (map cn_name (cn_children p))).
      { intros p Hp. eapply Permutation_in in Hp; [|exact HP]. apply in_flat_map in Hp. destruct Hp as [d [Hd Hp]]. apply in_seq in Hd.
        destruct (Nat.eq_dec d k) as [->|Hne]; [rewrite (HE p Hp); constructor|].
        apply (NoDup_flat_map_part cn_children cn_name (level d roots)); [|exact Hp]. rewrite <- level_S. apply (HL (S d)). lia. }
      clear -HM HK. induction (flat_map cmembers roots) as [|p r IH]; [constructor|]. cbn [flat_map map] in *. inversion HM; subst. apply SplitProofs.NoDup_app.
      * apply (NoDup_map_inj cn_name); [apply HK; left; reflexivity|]. intros x y _ _ E. injection E as E. exact E.
      * apply IH; [assumption|]. intros q Hq. apply HK. right. exact Hq.
      * intros [a b] Hx Hy. apply in_map_iff in Hx. destruct Hx as [c [E _]]. injection E as <- <-. apply in_flat_map in Hy. destruct Hy as [q [Hq Hy]].
        apply in_map_iff in Hy. destruct Hy as [c' [E _]]. injection E as _ E. apply H1. rewrite <- E. apply in_map. exact Hq.
    + intros [a b] Hx Hy. destruct add_root; [|destruct Hx]. apply in_map_iff in Hx. destruct Hx as [n [E Hn]]. injection E as <- <-.
      apply Hlink in Hy. destruct Hy as [d [p [c [Hd [Hp [Hc [E1 E2]]]]]]].
      assert (A0 : class_at log exts (k - 0) (cn_name n)) by (apply Hname; [lia|]; apply in_map; exact Hn).
      assert (A1 : class_at log exts (k - S d) (cn_name n)).
      { apply Hname; [lia|]. rewrite E1. apply in_map. rewrite level_S. apply in_flat_map. exists p. split; assumption. }
      assert (k - 0 = k - S d) by (eapply Hap; [| |exact A0|exact A1]; unfold k; lia). lia.
  - intros a b. split.
    + intros H. eapply Permutation_in in H; [|exact HA]. apply in_app_or in H. destruct H as [H|H].
      * left. destruct add_root; [|destruct H]. apply in_map_iff in H. destruct H as [n [E Hn]]. injection E as <- <-. split; [reflexivity|]. split; [reflexivity|].
        replace k with (k - 0) by lia. apply Hname; [lia|]. apply in_map. exact Hn.
      * right. apply Hlink in H. destruct H as [d [p [c [Hd [Hp [Hc [-> ->]]]]]]].
        destruct (nth_error exts (k - S d)) as [ex|] eqn:Eex; [|apply nth_error_None in Eex; unfold k in *; lia].
        assert (Hc' : In c (level (S d) roots)) by (rewrite level_S; apply in_flat_map; exists p; split; assumption).
        exists (k - S d), ex. split; [exact Eex|]. split; [apply Hname; [lia|]; apply in_map; exact Hc'|].
        apply (HC d ex p c Hd Eex Hp Hc'). exact Hc.
    + intros H. eapply Permutation_in; [apply Permutation_sym; exact HA|]. apply in_or_app. destruct H as [[-> [-> H]]|[j [ex [Eex [H E]]]]].
      * left. replace k with (k - 0) in H by lia. apply Hname in H; [|lia]. apply in_map_iff in H. destruct H as [n [<- Hn]]. apply in_map_iff. exists n. auto.
      * right. assert (Hj : j < k) by (apply nth_error_Some; rewrite Eex; discriminate).
        assert (Hb1 : class_at log exts (S j) b).
        { destruct H as [n [Hn Hpr]]. exists n. split; [exact Hn|]. clear -Eex Hpr E. revert j n Eex Hpr. induction exts as [|x exts IH]; intros [|j] n Eex Hpr; try discriminate.
          - cbn in Eex, Hpr |- *. injection Eex as ->. injection Hpr as ->. rewrite E. reflexivity.
          - cbn [nth_error] in Eex. cbn [firstn promote] in Hpr |- *. destruct (x n) as [n'|]; [|discriminate]. cbn [bind] in *. apply (IH j n' Eex Hpr). }
        apply Hlink. replace j with (k - S (k - S j)) in H, Eex by lia. replace (S j) with (k - (k - S j)) in Hb1 by lia.
        apply Hname in H; [|lia]. apply Hname in Hb1; [|lia]. apply in_map_iff in H. apply in_map_iff in Hb1. destruct H as [c [<- Hc]], Hb1 as [p [<- Hp]].
        exists (k - S j), p, c. split; [lia|]. split; [exact Hp|]. split; [|auto]. apply (HC (k - S j) ex p c); [lia|exact Eex|exact Hp|exact Hc|exact E].
Qed.

(** One graph per level. *)
Lemma levels_proof hashes add_root creator path mutator acts :
  exists ks, StronglySorted Z.lt ks /\ (forall k, In k ks <-> exists a, In a acts /\ nd_level (an_data a) = k) /\
    draw_by_levels hashes add_root creator path mutator acts =
      Ok (map (fun k => (option_map (fun s => mutator s k) path,
                         build_graph creator (map of_activity (filter (fun a => (nd_level (an_data a) =? k)%Z) acts)) add_root)) ks).
Proof.
  destruct (by_level_proof acts) as [ks [E [HS HI]]]. exists ks. split; [exact HS|]. split; [exact HI|].
  unfold draw_by_levels. rewrite E. clear E HS.
  assert (Hin : forall k, In k ks -> exists a, In a acts /\ nd_level (an_data a) = k) by (intros k; apply HI). clear HI.
  induction ks as [|k ks IH]; [reflexivity|]. cbn [map mapM fst]. unfold build_activity_graph at 1. rewrite for_level_proof.
  destruct (Hin k (or_introl eq_refl)) as [a [Ha Ek]].
  assert (X : existsb (fun a => (nd_level (an_data a) =? k)%Z) acts = true) by (apply existsb_exists; exists a; split; [exact Ha|]; apply Z.eqb_eq; exact Ek).
  rewrite X. cbn [bind]. rewrite IH by (intros k' Hk; apply Hin; right; exact Hk). cbn [bind]. destruct path; reflexivity.
Qed.

(** Paths. *)
Lemma behind_last_spec c p : forall i found, found <= i ->
  behind_last c p i found = found /\ ~ In c p \/
  exists a b, p = a ++ c :: b /\ ~ In c b /\ behind_last c p i found = S (i + length a).
Proof.
  induction p as [|x p IH]; intros i found Hf; [left; split; [reflexivity|intros []]|]. cbn [behind_last]. destruct (N.eqb x c) eqn:E.
  - apply N.eqb_eq in E. subst x. right. destruct (IH (S i) (S i) (Nat.le_refl _)) as [[H1 H2]|[a [b [-> [H2 H3]]]]].
    + exists [], p. rewrite H1. split; [reflexivity|]. split; [exact H2|]. cbn. lia.
    + exists (c :: a), b. rewrite H3. split; [reflexivity|]. split; [exact H2|]. cbn. lia.
  - apply N.eqb_neq in E. destruct (IH (S i) found ltac:(lia)) as [[H1 H2]|[a [b [-> [H2 H3]]]]].
    + left. split; [exact H1|]. intros [X|X]; [exact (E X)|exact (H2 X)].
    + right. exists (x :: a), b. rewrite H3. split; [reflexivity|]. split; [exact H2|]. cbn. lia.
Qed.
Lemma splitext_spec p : fst (splitext p) ++ snd (splitext p) = p /\
  (snd (splitext p) = [] \/ exists e, snd (splitext p) = 46%N :: e /\ ~ In 46%N e /\ ~ In 47%N e).
Proof.
  unfold splitext. set (sep := behind_last 47 p 0 0). set (dot := behind_last 46 p 0 0).
  destruct ((sep <? dot) && existsb (fun x => negb (N.eqb x 46)) (slice_of p sep (dot - 1))) eqn:E; cbn [fst snd].
  - split; [apply firstn_skipn|]. right. apply andb_true_iff in E. destruct E as [E _]. apply Nat.ltb_lt in E.
    destruct (behind_last_spec 46 p 0 0 (Nat.le_refl 0)) as [[H1 H2]|[a [b [Hp [H2 H3]]]]]; [unfold dot in E; lia|].
    fold dot in H3. exists b. rewrite H3. cbn [Nat.add Nat.sub]. rewrite Nat.sub_0_r.
    split; [rewrite Hp, skipn_app, skipn_all, Nat.sub_diag; reflexivity|]. split; [exact H2|].
    intros Hb. destruct (behind_last_spec 47 p 0 0 (Nat.le_refl 0)) as [[H4 H5]|[a' [b' [Hp' [H5 H6]]]]].
    + apply H5. rewrite Hp. apply in_or_app. right. right. exact Hb.
    + fold sep in H6. cbn [Nat.add] in *. assert (length a' < length a) by lia.
      assert (X : In 47%N b'). { assert (Y : skipn (S (length a')) p = b') by (rewrite Hp', <- (app_nil_l (47%N :: b')), skipn_app; rewrite skipn_all2 by lia; replace (S (length a') - length a') with 1 by lia; reflexivity).
        rewrite <- Y, Hp, skipn_app. apply in_or_app. right. assert (Z0 : S (length a') - length a = 0) by lia. rewrite Z0. right. exact Hb. }
      exact (H5 X).
  - split; [apply app_nil_r|]. left. reflexivity.
Qed.
Lemma level_path_inj p k k' : level_save_path p k = level_save_path p k' -> k = k'.
Proof.
  unfold level_save_path. intros E. apply app_inv_head in E. cbn [app] in E. injection E as E. apply app_inv_tail in E. apply show_int_inj. exact E.
Qed.

(** Serialized graphs. *)
Lemma source_lines render opening g : line opening -> (forall c, In c g -> line (render c)) ->
  split_go (str "
") (graph_source render opening g) 0 [] = opening :: map render g ++ [str "}"; []].
Proof.
  intros Ho Hr. rewrite <- (split_joined (str "
") (opening :: map render g ++ [str "}"; []])).
  - f_equal. unfold graph_source. rewrite joined_cons by (destruct g; discriminate). f_equal. f_equal.
    clear Ho Hr. induction g as [|c g IH]; [reflexivity|]. cbn [flat_map map]. rewrite <- !app_assoc. cbn [app].
    rewrite joined_cons by (destruct g; discriminate). f_equal. f_equal. exact IH.
  - discriminate.
  - apply splittable_single. split; [discriminate|]. intros x [<-|Hx]; [exact Ho|]. apply in_app_or in Hx. destruct Hx as [Hx|[<-|[<-|[]]]]; [|cbn; intuition discriminate|intros []].
    apply in_map_iff in Hx. destruct Hx as [c [<- Hc]]. apply Hr. exact Hc.
Qed.
Lemma serialized_eq render opening g : line opening -> (forall c, In c g -> line (render c)) ->
  serialize_graphviz_graph (graph_source render opening g) = str_join (str "
") (sort_strs (map render g ++ [str "}"])).
Proof.
  intros Ho Hr. unfold serialize_graphviz_graph. rewrite source_lines by assumption. unfold slice_of. cbn [length skipn].
  do 2 f_equal. rewrite app_length. cbn [length]. replace (S (length (map render g) + 2) - 1 - 1) with (length (map render g ++ [str "}"])) by (rewrite app_length; cbn [length]; lia).
  replace (map render g ++ [str "}"; []]) with ((map render g ++ [str "}"]) ++ [[]]) by (rewrite <- app_assoc; reflexivity).
  rewrite firstn_app, firstn_all, Nat.sub_diag. cbn [firstn]. apply app_nil_r.
Qed.
Lemma serialized_proof render opening opening' g g' : line opening -> line opening' -> (forall c, In c (g ++ g') -> line (render c)) ->
  (serialize_graphviz_graph (graph_source render opening g) = serialize_graphviz_graph (graph_source render opening' g') <->
   Permutation (map render g) (map render g')).
Proof.
  intros Ho Ho' Hr. rewrite !serialized_eq; try assumption; try (intros c Hc; apply Hr; apply in_or_app; auto).
  rewrite !str_join_joined. split.
  - intros E. assert (S : forall k, (forall c, In c k -> line (render c)) -> splittable (str "
") (sort_strs (map render k ++ [str "}"]))).
    { intros k Hk. apply splittable_single. split.
      - intros X. pose proof (Permutation_length (sort_strs_perm (map render k ++ [str "}"]))) as L. rewrite X, app_length in L. cbn in L. lia.
      - intros x Hx. eapply Permutation_in in Hx; [|apply Permutation_sym; apply sort_strs_perm]. apply in_app_or in Hx. destruct Hx as [Hx|[<-|[]]]; [|cbn; intuition discriminate].
        apply in_map_iff in Hx. destruct Hx as [c [<- Hc]]. apply Hk. exact Hc. }
    apply (f_equal (fun s => split_go (str "
") s 0 [])) in E. rewrite !split_joined in E; try discriminate; try (apply S; intros c Hc; apply Hr; apply in_or_app; auto).
    apply (Permutation_app_inv_r [str "}"]). rewrite (sort_strs_perm (map render g ++ [str "}"])), E. apply Permutation_sym, sort_strs_perm.
  - intros P. rewrite (sort_strs_perm_eq _ (map render g' ++ [str "}"])); [reflexivity|]. apply Permutation_app_tail. exact P.
Qed.

Lemma class_graph_stable_proof order order' : (forall l, Permutation (order l) l) -> (forall l, Permutation (order' l) l) ->
  forall log exts roots roots' add_root render opening, layers_apart log exts ->
  build_class_tree order log exts = Ok roots -> build_class_tree order' log exts = Ok roots' -> line opening -> (forall c, line (render c)) ->
  serialize_graphviz_graph (graph_source render opening (build_event_class_graph roots add_root)) =
  serialize_graphviz_graph (graph_source render opening (build_event_class_graph roots' add_root)).
Proof.
  intros Ho Ho' log exts roots roots' add_root render opening Hap H H' Hop Hr.
  destruct (class_graph_proof order Ho log exts roots add_root H Hap) as [N1 [D1 [M1 A1]]].
  destruct (class_graph_proof order' Ho' log exts roots' add_root H' Hap) as [N2 [D2 [M2 A2]]].
  apply serialized_proof; auto. apply Permutation_map. apply calls_perm.
  - apply NoDup_Permutation; [exact N1|exact N2|]. intros m. rewrite D1, D2. reflexivity.
  - apply NoDup_Permutation; [exact M1|exact M2|]. intros [a b]. rewrite A1, A2. reflexivity.
Qed.
