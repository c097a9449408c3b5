(** Proofs for C69: the activity instances of the backend. *)
From Coq Require Import Sorting.Sorted Permutation.
From Verif Require EqProofs.
From Verif Require Import Py PyFacts ReplayModel HashModel PatternModel PatternSpec PatternProofs HighProofs TreeModel TreeSpec TreeProofs ActModel ActSpec ActProofs RActModel RActSpec RActProofs1.
From Verif Require SufModel.

Section Groups.
  Context {D : Type}.
  Variable name : D -> pystr.
  Notation node := (anode D).

  Lemma r_split_sorted_eq : forall l k (g : list node), r_split_sorted k g l = split_sorted k g l.
  Proof. induction l as [|x l IH]; intros k g; [reflexivity|]. cbn [r_split_sorted split_sorted]. destruct (an_length x =? k); cbn [negb]; [apply IH|rewrite IH; reflexivity]. Qed.
  Lemma split_sorted_cons y : forall l k (g : list node), exists g0 rest, split_sorted k g l = g0 :: rest /\ split_sorted k (y :: g) l = (y :: g0) :: rest /\ exists t, g0 = g ++ t /\ forall x, In x t -> an_length x = k.
  Proof.
    induction l as [|x l IH]; intros k g; cbn [split_sorted].
    - exists g, []. split; [reflexivity|]. split; [reflexivity|]. exists []. split; [rewrite app_nil_r; reflexivity|intros x []].
    - destruct (Nat.eqb_spec (an_length x) k) as [E|E].
      + destruct (IH k (g ++ [x])) as [g0 [rest [E1 [E2 [t [E3 E4]]]]]]. exists g0, rest. split; [exact E1|]. split; [exact E2|]. exists (x :: t). split; [rewrite E3, <- app_assoc; reflexivity|]. intros z [<-|Hz]; [exact E|apply E4; exact Hz].
      + exists g, (split_sorted (an_length x) [x] l). split; [reflexivity|]. split; [reflexivity|]. exists []. split; [rewrite app_nil_r; reflexivity|intros z []].
  Qed.

  Lemma find_twice test x (g : list node) : find test (sort_name name (x :: x :: g)) = find test (sort_name name (x :: g)).
  Proof.
    change (sort_name name (x :: x :: g)) with (insert_name name x (sort_name name (x :: g))). rewrite (find_insert name test x _ (sort_name_sorted name (x :: g))).
    destruct (test x) eqn:Et; [|reflexivity]. change (sort_name name (x :: g)) with (insert_name name x (sort_name name g)). rewrite (find_insert name test x _ (sort_name_sorted name g)), Et.
    assert (Hr : leb_name name x x = true) by apply EqProofs.str_leb_refl.
    destruct (find test (sort_name name g)) as [a|]; [|rewrite Hr; reflexivity]. destruct (leb_name name x a) eqn:El; [rewrite Hr; reflexivity|rewrite El; reflexivity].
  Qed.

  Lemma groups_shape (l : list node) : (r_split_by_size name l = [] /\ split_by_size name l = []) \/
    exists x t rest, r_split_by_size name l = sort_name name (x :: x :: t) :: rest /\ split_by_size name l = sort_name name (x :: t) :: rest /\ forall y, In y t -> an_length y = an_length x.
  Proof.
    unfold r_split_by_size, split_by_size. destruct (sort_asc l) as [|x r]; [left; split; reflexivity|right].
    rewrite r_split_sorted_eq. cbn [split_sorted]. rewrite Nat.eqb_refl. cbn [app].
    destruct (split_sorted_cons x r (an_length x) [x]) as [g0 [rest [E1 [E2 [t [E3 E4]]]]]]. exists x, t, (map (sort_name name) rest). rewrite E1, E2. subst g0. cbn [map app]. split; [reflexivity|]. split; [reflexivity|exact E4].
  Qed.
  Lemma r_find_in test (l : list node) : find_in test (r_split_by_size name l) = find_in test (split_by_size name l).
  Proof.
    destruct (groups_shape l) as [[-> ->]|[x [t [rest [-> [-> _]]]]]]; [reflexivity|]. cbn [find_in]. rewrite find_twice. reflexivity.
  Qed.
  Lemma sort_name_head x (t : list node) : (forall y, In y t -> an_length y = an_length x) -> exists a0 g, sort_name name (x :: t) = a0 :: g /\ an_length a0 = an_length x.
  Proof.
    intros H. assert (Hp := sort_name_perm name (x :: t)). destruct (sort_name name (x :: t)) as [|a0 g]; [apply Permutation_nil in Hp; discriminate|].
    exists a0, g. split; [reflexivity|]. destruct (Permutation_in a0 Hp (or_introl eq_refl)) as [<-|Hin]; [reflexivity|apply H; exact Hin].
  Qed.
  Lemma r_find_wider c test (l : list node) : find_wider c test (r_split_by_size name l) = find_wider c test (split_by_size name l).
  Proof.
    destruct (groups_shape l) as [[-> ->]|[x [t [rest [-> [-> Ht]]]]]]; [reflexivity|]. pose proof (find_twice test x t) as Hf.
    destruct (sort_name_head x t Ht) as [a0 [g [E0 L0]]]. destruct (sort_name_head x (x :: t)) as [a1 [g1 [E1 L1]]]; [intros y [<-|Hy]; [reflexivity|apply Ht; exact Hy]|].
    rewrite E0, E1 in *. cbn [find_wider]. rewrite L0, L1. destruct (an_length x <? c); [reflexivity|]. rewrite Hf. reflexivity.
  Qed.

  (** Sorting sorted activities again changes nothing. *)
  Lemma sort_asc_again (l : list node) : sort_asc (sort_asc l) = sort_asc l.
  Proof.
    assert (G : forall m : list node, StronglySorted (fun a b => an_length a <= an_length b) m -> sort_asc m = m).
    { induction 1 as [|x m Hs IH HF]; [reflexivity|]. change (sort_asc (x :: m)) with (insert_asc x (sort_asc m)). rewrite IH. destruct m as [|y m]; [reflexivity|]. cbn [insert_asc].
      inversion HF; subst. destruct (Nat.leb_spec (an_length x) (an_length y)); [reflexivity|lia]. }
    apply G. apply sort_asc_sorted.
  Qed.
  Lemma r_split_again (l : list node) : r_split_by_size name (sort_asc l) = r_split_by_size name l.
  Proof. unfold r_split_by_size. rewrite sort_asc_again. reflexivity. Qed.
End Groups.

Section Narrow.
  Context {D : Type}.
  Notation node := (anode D).

  Definition lift {A} (o : option A) : result A := match o with Some a => Ok a | None => Err Diverges end.

  Lemma r_narrow_loop_eq s : forall fuel (q found : list node), r_narrow_loop fuel s q found = lift (narrow_loop fuel s q found).
  Proof. induction fuel as [|fuel IH]; intros q found; [reflexivity|]. cbn [r_narrow_loop narrow_loop]. destruct q as [|a q]; [reflexivity|]. destruct (contains_set (an_set a) s); apply IH. Qed.

  Lemma min_fold : forall (l : list node) b, fold_left (fun best y => if an_length y <? an_length best then y else best) l b =
    match sort_asc l with [] => b | h :: _ => if an_length b <=? an_length h then b else h end.
  Proof.
    induction l as [|y l IH]; intros b; [reflexivity|]. cbn [fold_left]. rewrite IH. change (sort_asc (y :: l)) with (insert_asc y (sort_asc l)).
    destruct (sort_asc l) as [|h r]; cbn [insert_asc].
    - destruct (Nat.ltb_spec (an_length y) (an_length b)), (Nat.leb_spec (an_length b) (an_length y)); try reflexivity; lia.
    - destruct (Nat.ltb_spec (an_length y) (an_length b)), (Nat.leb_spec (an_length y) (an_length h)); cbn;
        repeat match goal with |- context [?a <=? ?b] => destruct (Nat.leb_spec a b) end; try reflexivity; lia.
  Qed.
  Lemma min_by_len_eq (l : list node) : min_by_len l = match sort_asc l with [] => None | h :: _ => Some h end.
  Proof.
    destruct l as [|x l]; [reflexivity|]. cbn [min_by_len]. rewrite min_fold. change (sort_asc (x :: l)) with (insert_asc x (sort_asc l)). destruct (sort_asc l) as [|h r]; [reflexivity|]. cbn [insert_asc].
    destruct (an_length x <=? an_length h); reflexivity.
  Qed.

  Lemma r_narrow_eq kind (a : node) s : r_narrow kind a s = lift (if narrows kind then narrow_activity a s else Some a).
  Proof.
    assert (H : narrows kind = true -> r_narrow kind a s = lift (narrow_activity a s)).
    { intros Hk. unfold narrow_activity. assert (E : r_narrow kind a s = bind (r_narrow_loop (node_count a) s (an_children a) []) (fun found => match found with [] => Ok a | _ => SufModel.unwrap (min_by_len found) end)) by (destruct kind; try discriminate; reflexivity).
      rewrite E, r_narrow_loop_eq. destruct (narrow_loop (node_count a) s (an_children a) []) as [found|]; [|reflexivity]. cbn [lift bind].
      destruct found as [|x found]; [reflexivity|]. rewrite min_by_len_eq. assert (Hp := sort_asc_perm (x :: found)). destruct (sort_asc (x :: found)) as [|h r]; [apply Permutation_nil in Hp; discriminate|reflexivity]. }
    destruct (narrows kind) eqn:E; [apply H; reflexivity|]. destruct kind; try discriminate; reflexivity.
  Qed.
End Narrow.

Section Instances.
  Context {D : Type}.
  Variables (name : D -> pystr) (activities : list (anode D)) (kind : narrowing) (min_events : nat) (fkind : filter_kind).
  Let groups := r_split_by_size name activities.

  Lemma r_close_eq (a : anode D) start stop s found : r_close kind min_events fkind a start stop s found = lift (close (narrows kind) (is_suitable min_events fkind) a start stop s found).
  Proof.
    unfold r_close, close. rewrite r_narrow_eq. destruct (if narrows kind then narrow_activity a s else Some a) as [a'|]; reflexivity.
  Qed.
  Lemma r_loop_eq trace : forall fuel st, r_extract_loop groups kind min_events fkind fuel trace st =
    lift (extract_loop name activities (narrows kind) (is_suitable min_events fkind) fuel trace st).
  Proof.
    induction fuel as [|fuel IH]; intros st; [reflexivity|]. cbn [r_extract_loop extract_loop]. destruct (nth_error trace (x_next st)) as [h|].
    - destruct (x_cur st) as [[a start]|].
      + destruct (has_event a h); cbn [negb]; [apply IH|]. unfold groups. rewrite r_find_wider. destruct (find_wider _ _ _) as [b|]; [apply IH|].
        rewrite r_close_eq. destruct (close _ _ a start (x_next st) (x_set st) (x_found st)) as [found|]; [cbn [lift bind]; apply IH|reflexivity].
      + unfold groups. rewrite r_find_in. destruct (find_in _ _) as [a|]; apply IH.
    - destruct (x_cur st) as [[a start]|]; [apply r_close_eq|reflexivity].
  Qed.
  Lemma r_trace_eq trace : r_extract_trace groups kind min_events fkind trace = lift (extract_trace name activities (narrows kind) (is_suitable min_events fkind) trace).
  Proof. unfold r_extract_trace, extract_trace. apply r_loop_eq. Qed.
End Instances.

Lemma suitable_iff {D} min_events kind (x : instance D) : is_suitable min_events kind x = true <-> suitable min_events kind x.
Proof.
  unfold is_suitable, suitable. destruct kind; [split; [discriminate|reflexivity]|]. fold (an_length (in_node x)). destruct (Nat.ltb_spec (an_length (in_node x)) min_events) as [H|H].
  - split; [discriminate|]. intros K. specialize (K eq_refl). lia.
  - rewrite Nat.ltb_lt. split; [intros K _; split; assumption|intros K; apply K; reflexivity].
Qed.

Lemma r_instances_proof D (name : D -> pystr) log activities kind min_events fkind :
  exists r, r_extract_instances name log activities kind min_events fkind = Ok r /\
    Forall2 (fun trace l => extract_trace name activities (narrows kind) (is_suitable min_events fkind) trace = Some l /\ ordered 0 (length trace) l) log r.
Proof.
  unfold r_extract_instances. induction log as [|t log IH]; [exists []; split; [reflexivity|constructor]|].
  destruct IH as [r [E H]]. destruct (extraction_ordered_proof name activities (narrows kind) (is_suitable min_events fkind) t) as [l [El Ho]].
  exists (l :: r). cbn [mapM]. rewrite r_trace_eq, El. cbn [lift bind]. rewrite E. split; [reflexivity|]. constructor; [split; assumption|exact H].
Qed.

Lemma r_trace_ok D (name : D -> pystr) activities kind min_events fkind trace l :
  r_extract_trace (r_split_by_size name activities) kind min_events fkind trace = Ok l <-> extract_trace name activities (narrows kind) (is_suitable min_events fkind) trace = Some l.
Proof. rewrite r_trace_eq. destruct (extract_trace _ _ _ _ _) as [l'|]; cbn; split; congruence. Qed.

Lemma r_exact_instances_proof D (name : D -> pystr) activities kind min_events fkind trace :
  exists segs ys l, segments name activities trace 0 segs /\ Forall2 (reported (narrows kind) trace) segs ys /\
    r_extract_trace (r_split_by_size name activities) kind min_events fkind trace = Ok l /\ ordered 0 (length trace) l /\
    thinned l ys /\ forall x, In x l <-> In x ys /\ suitable min_events fkind x.
Proof.
  destruct (extraction_exact_proof name activities (narrows kind) (is_suitable min_events fkind) trace) as [segs [ys [H1 [H2 H3]]]]. exists segs, ys, (filter (is_suitable min_events fkind) ys).
  split; [exact H1|]. split; [exact H2|]. split; [apply r_trace_ok; exact H3|]. split.
  - destruct (extraction_ordered_proof name activities (narrows kind) (is_suitable min_events fkind) trace) as [l [El Ho]]. rewrite H3 in El. injection El as <-. exact Ho.
  - split; [|intros x; rewrite filter_In, suitable_iff; reflexivity]. clear. induction ys as [|y ys IH]; cbn; [constructor|]. destruct (is_suitable min_events fkind y); constructor; exact IH.
Qed.

Lemma r_filter_proof D (name : D -> pystr) activities kind min_events min' trace l l' :
  r_extract_trace (r_split_by_size name activities) kind min_events DefaultFilter trace = Ok l ->
  r_extract_trace (r_split_by_size name activities) kind min' NoFilter trace = Ok l' ->
  thinned l l' /\ forall x, In x l <-> In x l' /\ min_events <= length (an_set (in_node x)) /\ length (an_set (in_node x)) / 2 < in_length x.
Proof.
  intros H1 H2. apply r_trace_ok in H1, H2. 
  destruct (extraction_exact_proof name activities (narrows kind) (is_suitable min_events DefaultFilter) trace) as [segs [ys [A1 [A2 A3]]]].
  destruct (extraction_exact_proof name activities (narrows kind) (is_suitable min' NoFilter) trace) as [segs' [ys' [B1 [B2 B3]]]].
  assert (segs' = segs) by (apply (segments_unique_proof name activities trace 0); assumption). subst segs'.
  (* the reported nodes: take the run without filter for both *)
  destruct (extraction_exact_proof name activities (narrows kind) (fun _ => true) trace) as [segs'' [zs [C1 [C2 C3]]]].
  assert (L' : l' = zs).
  { assert (E : extract_trace name activities (narrows kind) (is_suitable min' NoFilter) trace = extract_trace name activities (narrows kind) (fun _ => true) trace) by reflexivity.
    rewrite E, C3 in H2. injection H2 as <-. clear. induction zs; cbn; congruence. }
  subst l'.
  assert (L : extract_trace name activities (narrows kind) (is_suitable min_events DefaultFilter) trace = Some (filter (is_suitable min_events DefaultFilter) zs)).
  { clear -C3.
    assert (G : forall accept fuel st l, extract_loop name activities (narrows kind) (fun _ => true) fuel trace st = Some l ->
              extract_loop name activities (narrows kind) accept fuel trace (mkX (x_next st) (x_cur st) (x_set st) (filter accept (x_found st))) = Some (filter accept l)).
    { intros accept. induction fuel as [|fuel IH]; intros st l H; [discriminate|]. cbn [extract_loop] in *. cbn [x_next x_cur x_set x_found] in *.
      assert (Hc : forall a start stop s found l0, close (narrows kind) (fun _ => true) a start stop s found = Some l0 -> close (narrows kind) accept a start stop s (filter accept found) = Some (filter accept l0)).
      { intros a start stop s found l0. unfold close. destruct (if narrows kind then narrow_activity a s else Some a) as [a'|]; [|discriminate]. intros [= <-]. rewrite filter_app. cbn [filter]. destruct (accept _); [reflexivity|rewrite app_nil_r; reflexivity]. }
      destruct (nth_error trace (x_next st)) as [h|].
      - destruct (x_cur st) as [[a start]|].
        + destruct (has_event a h); [exact (IH _ _ H)|]. destruct (find_wider _ _ _) as [b|]; [exact (IH _ _ H)|].
          destruct (close (narrows kind) (fun _ => true) a start (x_next st) (x_set st) (x_found st)) as [found|] eqn:Ec; [|discriminate]. rewrite (Hc _ _ _ _ _ _ Ec). exact (IH _ _ H).
        + destruct (find_in _ _) as [a|]; exact (IH _ _ H).
      - destruct (x_cur st) as [[a start]|]; [exact (Hc _ _ _ _ _ _ H)|]. injection H as <-. reflexivity. }
    unfold extract_trace in *. specialize (G (is_suitable min_events DefaultFilter) _ _ _ C3). cbn [x_next x_cur x_set x_found filter] in G. rewrite G. f_equal.
    clear. induction zs as [|z zs IH]; [reflexivity|]. change (filter (fun _ : instance D => true) (z :: zs)) with (z :: filter (fun _ : instance D => true) zs). cbn [filter]. rewrite IH. reflexivity. }
  rewrite L in H1. injection H1 as <-. split.
  - clear. induction zs as [|y ys IH]; [constructor|]. cbn [filter]. destruct (is_suitable min_events DefaultFilter y); constructor; exact IH.
  - intros x. rewrite filter_In, suitable_iff. unfold suitable. split; [intros [H K]; split; [exact H|apply K; reflexivity]|intros [H K]; split; [exact H|intros _; exact K]].
Qed.

Lemma r_contents_proof D (name : D -> pystr) activities kind min_events fkind trace l :
  r_extract_trace (r_split_by_size name activities) kind min_events fkind trace = Ok l ->
  forall x, In x l -> included (piece trace (in_start x) (in_length x)) (an_set (in_node x)) /\
    exists a, In a activities /\ included (piece trace (in_start x) (in_length x)) (an_set a) /\ (in_node x = a \/ narrows kind = true /\ below (in_node x) a).
Proof. intros H. apply r_trace_ok in H. exact (contents_proof name activities (narrows kind) _ trace l H). Qed.

Lemma r_covered_proof D (name : D -> pystr) activities kind min_events trace l :
  r_extract_trace (r_split_by_size name activities) kind min_events NoFilter trace = Ok l ->
  forall j h, nth_error trace j = Some h -> (covered l j <-> exists a, In a activities /\ In h (an_set a)).
Proof. intros H. apply r_trace_ok in H. exact (covered_proof name activities (narrows kind) trace l H). Qed.

Lemma r_narrow_proof D kind (a : anode D) s : inclusion_tree a -> included s (an_set a) -> exists r, r_narrow kind a s = Ok r /\
  if narrows kind then (r = a \/ below r a) /\ included s (an_set r) /\ (forall b, below b a -> included s (an_set b) -> length (an_set r) <= length (an_set b)) /\ (r = a -> forall b, below b a -> ~ included s (an_set b))
  else r = a.
Proof.
  intros Ht Hs. rewrite r_narrow_eq. destruct (narrows kind); [|exists a; split; reflexivity]. destruct (narrow_tree_proof s a Ht Hs) as [r [-> H]]. exists r. split; [reflexivity|exact H].
Qed.

(** * adding instances *)
Section Add.
  Context {D : Type}.
  Notation inst := (instance D).

  Lemma loopM_step {A S} (f : S -> A -> result S) x l s : loopM f (x :: l) s = bind (f s x) (loopM f l).
  Proof. reflexivity. Qed.
  Lemma ordered_le' : forall (l : list inst) lo hi, ordered lo hi l -> lo <= hi.
  Proof. induction l as [|x r IH]; intros lo hi H; [exact H|]. cbn in H. destruct H as (H1 & H2 & H3). apply IH in H3. unfold in_end in H3. lia. Qed.
  Lemma ordered_weaken' : forall (l : list inst) lo lo' hi, lo' <= lo -> ordered lo hi l -> ordered lo' hi l.
  Proof. destruct l as [|x r]; intros lo lo' hi H1 H2; cbn in *; [lia|]. destruct H2 as (A & B). split; [lia|exact B]. Qed.

  Lemma process_stretches n : forall (l : list inst) lo a b, ordered lo n l -> In (Unattached a b) (r_process lo n l) <->
    lo <= a < b /\ b <= n /\ (forall j, a <= j < b -> ~ covered l j) /\ (a = lo \/ covered l (a - 1)) /\ (b = n \/ covered l b).
  Proof.
    induction l as [|x r IH]; intros lo a b H; cbn [r_process].
    - cbn in H. destruct (lo <? n) eqn:E; [apply Nat.ltb_lt in E|apply Nat.ltb_ge in E].
      + split.
        * intros [G|[]]. injection G as <- <-. repeat split; try lia. intros j _ (y & [] & _).
        * intros (G1 & G2 & G3 & G4 & G5). left. f_equal; [destruct G4 as [->|(y & [] & _)]|destruct G5 as [->|(y & [] & _)]]; reflexivity.
      + split; [intros []|]. lia.
    - cbn [ordered] in H. destruct H as (H1 & H2 & H3). assert (Hle := ordered_le' _ _ _ H3).
      assert (Hcov : forall j, covered (x :: r) j <-> in_start x <= j < in_end x \/ covered r j).
      { intros j. split; [intros (y & [<-|Hy] & Hj); [left; exact Hj|right; exists y; auto]|intros [Hj|(y & Hy & Hj)]; [exists x; split; [left; reflexivity|exact Hj]|exists y; split; [right; exact Hy|exact Hj]]]. }
      assert (Hr : forall j, covered r j -> in_end x <= j < n).
      { intros j (y & Hy & Hj). destruct (ordered_within r _ _ H3) as [W _]. specialize (W y Hy). lia. }
      rewrite in_app_iff. cbn [In]. rewrite (IH (in_start x + in_length x) a b H3). unfold in_end in *. split.
      + intros [G|[G|(G1 & G2 & G3 & G4 & G5)]]; [|discriminate|].
        * destruct (lo <? in_start x) eqn:E; [|destruct G]. apply Nat.ltb_lt in E. destruct G as [G|[]]. injection G as <- <-.
          repeat split; try lia. intros j Hj Hc. apply Hcov in Hc as [Hc|Hc]; [lia|]. apply Hr in Hc. lia. right. apply Hcov. left. lia.
        * repeat split; try lia.
          -- intros j Hj Hc. apply Hcov in Hc as [Hc|Hc]; [lia|]. exact (G3 j Hj Hc).
          -- right. apply Hcov. destruct G4 as [->|G4]; [left; lia|right; exact G4].
          -- destruct G5 as [G5|G5]; [left; exact G5|right; apply Hcov; right; exact G5].
      + intros (G1 & G2 & G3 & G4 & G5).
        destruct (le_lt_dec (in_start x + in_length x) a) as [Ha|Ha].
        * right. right. repeat split; try lia.
          -- intros j Hj Hc. apply (G3 j Hj). apply Hcov. right. exact Hc.
          -- destruct G4 as [->|G4]; [lia|]. apply Hcov in G4 as [G4|G4]; [left; lia|right; exact G4].
          -- destruct G5 as [G5|G5]; [left; exact G5|]. apply Hcov in G5 as [G5|G5]; [lia|right; exact G5].
        * left. assert (a < in_start x). { destruct (le_lt_dec (in_start x) a) as [Hs|Hs]; [|exact Hs]. exfalso. apply (G3 a); [lia|]. apply Hcov. left. lia. }
          assert (Ea : a = lo). { destruct G4 as [G4|G4]; [exact G4|]. apply Hcov in G4 as [G4|G4]; [lia|]. apply Hr in G4. lia. } subst a.
          destruct (lo <? in_start x) eqn:E; [|apply Nat.ltb_ge in E; lia]. left. f_equal.
          destruct (Nat.lt_trichotomy b (in_start x)) as [Hb|[Hb|Hb]]; [|congruence|].
          -- exfalso. destruct G5 as [G5|G5]; [lia|]. apply Hcov in G5 as [G5|G5]; [lia|]. apply Hr in G5. lia.
          -- exfalso. apply (G3 (in_start x)); [lia|]. apply Hcov. left. lia.
  Qed.
  Lemma stretches_proof (l : list inst) n a b : ordered 0 n l -> In (Unattached a b) (r_process 0 n l) <-> stretch l n a b.
  Proof. intros H. rewrite (process_stretches n l 0 a b H). unfold stretch. split; intros (G1 & G2 & G3); repeat split; try lia; apply G3 || tauto. Qed.

  Lemma insert_start_perm (x : inst) l : Permutation (insert_by_start x l) (x :: l).
  Proof. induction l as [|y m IH]; cbn; [constructor; constructor|]. destruct (in_start x <=? in_start y); [apply Permutation_refl|]. rewrite IH. apply perm_swap. Qed.
  Lemma sort_by_start_perm (l : list inst) : Permutation (fold_right insert_by_start [] l) l.
  Proof. induction l as [|x r IH]; [constructor|]. cbn. rewrite insert_start_perm. constructor. exact IH. Qed.
  Definition le_st (x y : inst) : Prop := in_start x <= in_start y.
  Lemma sort_by_start_sorted (l : list inst) : StronglySorted le_st (fold_right insert_by_start [] l).
  Proof.
    induction l as [|x r IH]; [constructor|]. cbn. revert IH. generalize (fold_right insert_by_start [] r) as m. clear.
    induction m as [|y m IH]; intros H; cbn; [constructor; constructor|]. inversion H as [|? ? Hs Hf]; subst.
    destruct (in_start x <=? in_start y) eqn:E; [apply Nat.leb_le in E|apply Nat.leb_gt in E].
    - constructor; [exact H|]. constructor; [exact E|]. eapply Forall_impl; [|exact Hf]. unfold le_st. intros z Hz. lia.
    - constructor; [apply IH; exact Hs|]. apply (Permutation_Forall (Permutation_sym (insert_start_perm x m))). constructor; [unfold le_st; lia|exact Hf].
  Qed.
  Lemma by_start_unique : forall m (l : list inst) lo hi, ordered lo hi m -> StronglySorted le_st l -> Permutation l m -> l = m.
  Proof.
    induction m as [|x m IH]; intros l lo hi Ho Hs P; [apply Permutation_sym, Permutation_nil in P; exact P|].
    destruct l as [|h l]; [apply Permutation_nil in P; discriminate|]. cbn [ordered] in Ho. destruct Ho as (H1 & H2 & H3).
    inversion Hs as [|? ? Hs' Hf]; subst.
    assert (h = x) as ->.
    { assert (Hh : In h (x :: m)) by (eapply Permutation_in; [exact P|left; reflexivity]). destruct Hh as [->|Hh]; [reflexivity|].
      assert (Hx : In x (h :: l)) by (eapply Permutation_in; [apply Permutation_sym; exact P|left; reflexivity]). destruct Hx as [->|Hx]; [reflexivity|].
      rewrite Forall_forall in Hf. specialize (Hf x Hx). destruct (ordered_within m _ _ H3) as [W _]. specialize (W h Hh). unfold le_st, in_end in *. lia. }
    f_equal. eapply IH; [exact H3|exact Hs'|]. eapply Permutation_cons_inv. exact P.
  Qed.

  Variables (name : D -> pystr) (activities : list (anode D)) (minimum : nat) (kind : narrowing) (min_events : nat) (fkind : filter_kind) (trace : list N).

  Definition new_in (a b : nat) : list inst :=
    if b - a <? minimum then [] else
    match extract_trace name activities (narrows kind) (is_suitable min_events fkind) (piece trace a (b - a)) with Some ys => map (moved a) ys | None => [] end.
  Definition pick {A} (fg : nat -> nat -> list A) (fa : inst -> list A) (v : sub_trace) : list A :=
    match v with Unattached a b => fg a b | Attached x => fa x end.

  Lemma handle_ok a b : a <= b -> b <= length trace -> r_handle_unattached name activities minimum kind min_events fkind trace a b = Ok (new_in a b).
  Proof.
    intros H1 H2. unfold r_handle_unattached, new_in. destruct (Nat.ltb_spec b a) as [K|_]; [lia|]. destruct (b - a <? minimum); [reflexivity|].
    replace b with (a + (b - a)) at 1 by lia. rewrite range_of_piece by lia. cbn [bind]. unfold r_extract_instances. cbn [mapM]. rewrite r_trace_eq.
    destruct (extraction_ordered_proof name activities (narrows kind) (is_suitable min_events fkind) (piece trace a (b - a))) as (ys & -> & _). reflexivity.
  Qed.
  Lemma ordered_moved a : forall (ys : list inst) lo hi, ordered lo hi ys -> ordered (a + lo) (a + hi) (map (moved a) ys).
  Proof. induction ys as [|y ys IH]; intros lo hi H; cbn [map ordered] in *; [lia|]. destruct H as (H1 & H2 & H3). unfold moved, in_end in *. cbn. repeat split; try lia. apply IH in H3. rewrite <- Nat.add_assoc. exact H3. Qed.
  Lemma new_in_ordered a b : a <= b -> b <= length trace -> ordered a b (new_in a b).
  Proof.
    intros H1 H2. unfold new_in. destruct (b - a <? minimum); [exact H1|].
    destruct (extraction_ordered_proof name activities (narrows kind) (is_suitable min_events fkind) (piece trace a (b - a))) as (ys & -> & Ho).
    rewrite piece_length in Ho by lia. apply (ordered_moved a) in Ho. rewrite Nat.add_0_r in Ho. replace (a + (b - a)) with b in Ho by lia. exact Ho.
  Qed.
  Lemma ordered_app' : forall (l m : list inst) lo mid hi, ordered lo mid l -> ordered mid hi m -> ordered lo hi (l ++ m).
  Proof. induction l as [|x r IH]; intros m lo mid hi H1 H2; cbn [app ordered] in *; [eapply ordered_weaken'; eassumption|]. destruct H1 as (A1 & A2 & A3). repeat split; auto. eapply IH; eassumption. Qed.

  Definition all_of (lo : nat) (l : list inst) : list inst := flat_map (pick new_in (fun x => [x])) (r_process lo (length trace) l).
  Lemma all_ordered : forall l lo, ordered lo (length trace) l -> ordered lo (length trace) (all_of lo l).
  Proof.
    induction l as [|x r IH]; intros lo H; unfold all_of; cbn [r_process].
    - cbn in H. destruct (lo <? _) eqn:E; cbn; [|exact H]. rewrite app_nil_r. apply new_in_ordered; [exact H|lia].
    - cbn [ordered] in H. destruct H as (H1 & H2 & H3). assert (Hle := ordered_le' _ _ _ H3). rewrite flat_map_app. cbn [flat_map pick].
      assert (G : ordered (in_start x) (length trace) ([x] ++ all_of (in_start x + in_length x) r)).
      { cbn [app ordered]. split; [lia|]. split; [exact H2|]. apply IH. exact H3. }
      destruct (lo <? in_start x) eqn:E; [apply Nat.ltb_lt in E|apply Nat.ltb_ge in E].
      + cbn [flat_map pick]. rewrite app_nil_r. eapply ordered_app'; [|exact G]. unfold in_end in Hle. apply new_in_ordered; lia.
      + cbn [flat_map app]. eapply ordered_weaken'; [exact H1|exact G].
  Qed.
  Lemma all_perm : forall l lo, Permutation (flat_map (pick new_in (fun _ => [])) (r_process lo (length trace) l) ++ l) (all_of lo l).
  Proof.
    unfold all_of. induction l as [|x r IH]; intros lo; cbn [r_process].
    - rewrite app_nil_r. destruct (lo <? _); apply Permutation_refl.
    - rewrite !flat_map_app, <- app_assoc. apply Permutation_app.
      + destruct (lo <? in_start x); apply Permutation_refl.
      + cbn [flat_map pick app]. transitivity (x :: (flat_map (pick new_in (fun _ => [])) (r_process (in_start x + in_length x) (length trace) r) ++ r)).
        * apply Permutation_sym, Permutation_middle.
        * constructor. apply IH.
  Qed.
  Lemma thinned_app_l {A} (k l m : list A) : thinned l m -> thinned l (k ++ m).
  Proof. intros H. induction k; [exact H|]. cbn. constructor. exact IHk. Qed.
  Lemma thinned_nil_l {A} (m : list A) : thinned [] m.
  Proof. induction m; constructor; auto. Qed.
  Lemma all_thinned : forall l lo, thinned l (all_of lo l).
  Proof.
    unfold all_of. induction l as [|x r IH]; intros lo; [apply thinned_nil_l|]. cbn [r_process]. rewrite flat_map_app.
    apply thinned_app_l. cbn. constructor. apply IH.
  Qed.
  Lemma add_loop : forall vs acc, (forall a b, In (Unattached a b) vs -> a <= b /\ b <= length trace) ->
    loopM (fun acc v => match v with
                        | Unattached a b => bind (r_handle_unattached name activities minimum kind min_events fkind trace a b) (fun new => Ok (acc ++ new))
                        | Attached _ => Ok acc
                        end) vs acc = Ok (acc ++ flat_map (pick new_in (fun _ => [])) vs).
  Proof.
    induction vs as [|v vs IH]; intros acc H; [cbn; rewrite app_nil_r; reflexivity|]. rewrite loopM_step. destruct v as [x|a b]; cbn [bind].
    - rewrite IH by (intros a b Hin; apply H; right; exact Hin). reflexivity.
    - destruct (H a b (or_introl eq_refl)) as [H1 H2]. rewrite handle_ok by assumption. cbn [bind flat_map pick]. rewrite IH, app_assoc by (intros a' b' Hin; apply H; right; exact Hin). reflexivity.
  Qed.

  Lemma add_proof l : ordered 0 (length trace) l ->
    exists r, r_add_unattached_trace name activities minimum kind min_events fkind l trace = Ok r /\ ordered 0 (length trace) r /\ thinned l r /\
      forall x, In x r <-> In x l \/ exists a b ys y, stretch l (length trace) a b /\ minimum <= b - a /\
        r_extract_trace (r_split_by_size name activities) kind min_events fkind (piece trace a (b - a)) = Ok ys /\ In y ys /\ x = moved a y.
  Proof.
    intros Ho. exists (all_of 0 l). split; [|split; [apply all_ordered; exact Ho|split; [apply all_thinned|]]].
    - unfold r_add_unattached_trace. rewrite add_loop.
      + cbn [bind app]. f_equal. apply (by_start_unique _ _ 0 (length trace)); [apply all_ordered; exact Ho|apply sort_by_start_sorted|]. eapply Permutation_trans; [apply sort_by_start_perm|]. apply all_perm.
      + intros a b Hin. apply stretches_proof in Hin; [|exact Ho]. destruct Hin as (G1 & G2 & _). lia.
    - intros x. split.
      + intros H. apply (Permutation_in _ (Permutation_sym (all_perm l 0))) in H. apply in_app_or in H as [H|H]; [right|left; exact H].
        apply in_flat_map in H as (v & Hv & Hx). destruct v as [y|a b]; [destruct Hx|]. cbn [pick] in Hx. unfold new_in in Hx. destruct (Nat.ltb_spec (b - a) minimum) as [E|E]; [destruct Hx|].
        destruct (extract_trace _ _ _ _ _) as [ys|] eqn:Ey; [|destruct Hx]. apply in_map_iff in Hx as (y & <- & Hy). exists a, b, ys, y. split; [apply stretches_proof; assumption|]. split; [exact E|]. split; [apply r_trace_ok; exact Ey|]. split; [exact Hy|reflexivity].
      + intros H. apply (Permutation_in _ (all_perm l 0)). apply in_or_app. destruct H as [H|(a & b & ys & y & Hs & Hm & Hy & Hin & ->)]; [right; exact H|left].
        apply in_flat_map. exists (Unattached a b). split; [apply stretches_proof; assumption|]. cbn [pick]. unfold new_in. destruct (Nat.ltb_spec (b - a) minimum) as [E|E]; [lia|]. apply r_trace_ok in Hy. rewrite Hy. apply in_map. exact Hin.
  Qed.
End Add.
