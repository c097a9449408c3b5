(** Proofs for C70: logs made of activity instances. *)
From Verif Require Import Py PyFacts ReplayModel PatternModel PatternSpec PatternProofs HighProofs TreeModel TreeSpec ActModel ActSpec ActProofs RActModel RActSpec RActProofs4 RLogModel RLogSpec.
From Verif Require SufModel.
Lemma firstn_In {A} n (l : list A) x : In x (firstn n l) -> In x l.
Proof. revert l. induction n; intros [|y l]; cbn; try tauto. intros [->|H]; [left; reflexivity|right; apply IHn; exact H]. Qed.
Lemma skipn_In {A} n (l : list A) x : In x (skipn n l) -> In x l.
Proof. revert l. induction n; intros [|y l]; cbn; try tauto. intros H. right. apply IHn. exact H. Qed.


Section Positions.
  Context {D : Type}.
  Notation inst := (instance D).

  Lemma inside_iff (l : list inst) j : inside l j = true <-> covered l j.
  Proof.
    unfold inside. rewrite existsb_exists. split.
    - intros (x & Hx & H). apply andb_prop in H as [H1 H2]. exists x. split; [exact Hx|]. apply Nat.leb_le in H1. apply Nat.ltb_lt in H2. lia.
    - intros (x & Hx & H). exists x. split; [exact Hx|]. apply andb_true_intro. split; [apply Nat.leb_le|apply Nat.ltb_lt]; lia.
  Qed.
  Lemma not_before : forall (l : list inst) lo hi j, ordered lo hi l -> j < lo -> inside l j = false.
  Proof.
    induction l as [|x r IH]; intros lo hi j H Hj; [reflexivity|]. cbn in H. destruct H as (H1 & H2 & H3).
    change (((in_start x <=? j) && (j <? in_end x)) || inside r j = false).
    rewrite (IH _ _ j H3) by (unfold in_end; lia). rewrite orb_false_r.
    destruct (in_start x <=? j) eqn:E; [|reflexivity]. apply Nat.leb_le in E. lia.
  Qed.
  Lemma starts_before : forall (l : list inst) lo hi j, ordered lo hi l -> j < lo -> starts_here l j = None.
  Proof.
    induction l as [|x r IH]; intros lo hi j H Hj; [reflexivity|]. cbn in H. destruct H as (H1 & H2 & H3).
    unfold starts_here. cbn. destruct (in_start x =? j) eqn:E; [apply Nat.eqb_eq in E; lia|]. apply (IH _ _ j H3). unfold in_end. lia.
  Qed.
  Definition at_pos {A} (fa : inst -> list A) (pos : bool -> nat -> list A) (lo : nat) (l : list inst) (j : nat) : list A :=
    match starts_here l j with Some x => fa x | None => if inside l j then [] else pos ((j =? lo) || inside l (j - 1)) j end.
  Lemma fm_ext {A B} (f g : A -> list B) l : (forall x, In x l -> f x = g x) -> flat_map f l = flat_map g l.
  Proof. induction l as [|x r IH]; intros H; [reflexivity|]. cbn. rewrite (H x (or_introl eq_refl)), IH; [reflexivity|]. intros y Hy. apply H. right. exact Hy. Qed.
  Lemma fm_nil {A B} (f : A -> list B) l : (forall x, In x l -> f x = []) -> flat_map f l = [].
  Proof. intros H. rewrite (fm_ext f (fun _ => [])) by exact H. induction l; cbn; auto. apply IHl. intros; apply H; right; auto. Qed.
  Lemma seq_cut lo mid hi : lo <= mid <= hi -> seq lo (hi - lo) = seq lo (mid - lo) ++ seq mid (hi - mid).
  Proof. intros H. replace (hi - lo) with ((mid - lo) + (hi - mid)) by lia. rewrite seq_app. f_equal. f_equal. lia. Qed.

  Lemma process_positions {A} (fg : nat -> nat -> list A) (fa : inst -> list A) (pos : bool -> nat -> list A) n :
    (forall a b, a < b <= n -> fg a b = flat_map (fun j => pos (j =? a) j) (seq a (b - a))) ->
    forall l lo, ordered lo n l -> flat_map (pick fg fa) (r_process lo n l) = flat_map (at_pos fa pos lo l) (seq lo (n - lo)).
  Proof.
    intros Hg. induction l as [|x r IH]; intros lo H.
    - cbn [r_process]. destruct (lo <? n) eqn:E.
      + apply Nat.ltb_lt in E. cbn. rewrite app_nil_r, Hg by lia. apply fm_ext. intros j _. unfold at_pos. cbn. rewrite orb_false_r. reflexivity.
      + apply Nat.ltb_ge in E. replace (n - lo) with 0 by lia. reflexivity.
    - cbn [ordered] in H. destruct H as (H1 & H2 & H3). assert (Hle := ordered_le' _ _ _ H3). unfold in_end in Hle, H3.
      cbn [r_process]. rewrite flat_map_app. cbn [flat_map pick].
      rewrite (seq_cut lo (in_start x) n) by lia. rewrite (seq_cut (in_start x) (in_start x + in_length x) n) by lia.
      rewrite !flat_map_app. rewrite IH by exact H3. f_equal; [|f_equal].
      + assert (Hp : forall j, In j (seq lo (in_start x - lo)) -> at_pos fa pos lo (x :: r) j = pos (j =? lo) j).
        { intros j Hj. apply in_seq in Hj. unfold at_pos.
          assert (Hs : starts_here (x :: r) j = None).
          { unfold starts_here. cbn. destruct (in_start x =? j) eqn:E; [apply Nat.eqb_eq in E; lia|]. apply (starts_before r _ _ j H3). lia. }
          assert (Hc : forall i, i < in_start x -> inside (x :: r) i = false).
          { intros i Hi. change (((in_start x <=? i) && (i <? in_end x)) || inside r i = false).
            rewrite (not_before r _ _ i H3) by lia. destruct (in_start x <=? i) eqn:E; [apply Nat.leb_le in E; lia|reflexivity]. }
          rewrite Hs, !Hc by lia. rewrite orb_false_r. reflexivity. }
        rewrite (fm_ext _ _ _ Hp). destruct (lo <? in_start x) eqn:E.
        * apply Nat.ltb_lt in E. cbn. rewrite app_nil_r. apply Hg. lia.
        * apply Nat.ltb_ge in E. replace (in_start x - lo) with 0 by lia. reflexivity.
      + replace (in_start x + in_length x - in_start x) with (S (in_length x - 1)) by lia. cbn [seq flat_map].
        rewrite (fm_nil _ (seq (S (in_start x)) (in_length x - 1))).
        2:{ intros j Hj. apply in_seq in Hj. unfold at_pos. assert (Hs : starts_here (x :: r) j = None).
            { unfold starts_here. cbn. destruct (in_start x =? j) eqn:E; [apply Nat.eqb_eq in E; lia|]. apply (starts_before r _ _ j H3). lia. }
            rewrite Hs. replace (inside (x :: r) j) with true; [reflexivity|]. symmetry. apply inside_iff. exists x. split; [left; reflexivity|]. unfold in_end. lia. }
        rewrite app_nil_r. unfold at_pos, starts_here. cbn. rewrite Nat.eqb_refl. reflexivity.
      + apply fm_ext. intros j Hj. apply in_seq in Hj. unfold at_pos.
        assert (Hs : starts_here (x :: r) j = starts_here r j). { unfold starts_here. cbn. destruct (in_start x =? j) eqn:E; [apply Nat.eqb_eq in E; lia|reflexivity]. }
        assert (Hc : forall i, inside (x :: r) i = ((in_start x <=? i) && (i <? in_end x)) || inside r i) by reflexivity.
        rewrite Hs, !Hc. replace (j <? in_end x) with false by (symmetry; apply Nat.ltb_ge; unfold in_end; lia). rewrite andb_false_r. cbn [orb].
        destruct (starts_here r j); [reflexivity|]. destruct (inside r j); [reflexivity|]. f_equal.
        destruct (j =? in_start x + in_length x) eqn:E.
        * apply Nat.eqb_eq in E. replace (in_start x <=? j - 1) with true by (symmetry; apply Nat.leb_le; lia).
          replace (j - 1 <? in_end x) with true by (symmetry; apply Nat.ltb_lt; unfold in_end; lia). cbn. rewrite orb_true_r. reflexivity.
        * apply Nat.eqb_neq in E. replace (j - 1 <? in_end x) with false by (symmetry; apply Nat.ltb_ge; unfold in_end; lia).
          rewrite andb_false_r. cbn [orb]. replace (j =? lo) with false by (symmetry; apply Nat.eqb_neq; lia). reflexivity.
  Qed.

  Lemma process_inside n : forall (l : list inst) lo, ordered lo n l -> forall v, In v (r_process lo n l) ->
    match v with Unattached a b => lo <= a < b /\ b <= n | Attached x => In x l /\ lo <= in_start x /\ in_start x + in_length x <= n end.
  Proof.
    induction l as [|x r IH]; intros lo H v Hv; cbn [r_process] in Hv.
    - destruct (lo <? n) eqn:E; [|destruct Hv]. apply Nat.ltb_lt in E. destruct Hv as [<-|[]]. lia.
    - cbn [ordered] in H. destruct H as (H1 & H2 & H3). assert (Hle := ordered_le' _ _ _ H3). unfold in_end in *. apply in_app_or in Hv as [Hv|[<-|Hv]].
      + destruct (lo <? in_start x) eqn:E; [|destruct Hv]. apply Nat.ltb_lt in E. destruct Hv as [<-|[]]. lia.
      + split; [left; reflexivity|]. lia.
      + specialize (IH _ H3 v Hv). destruct v as [y|a b]; [|lia]. destruct IH as (I1 & I2). split; [right; exact I1|]. lia.
  Qed.
  Lemma seq_first {A} (x : list A) a n : 0 < n -> flat_map (fun j => if j =? a then x else []) (seq a n) = x.
  Proof.
    destruct n as [|n]; [lia|]. intros _. cbn. rewrite Nat.eqb_refl. rewrite fm_nil; [apply app_nil_r|].
    intros j Hj. apply in_seq in Hj. destruct (j =? a) eqn:E; [apply Nat.eqb_eq in E; lia|reflexivity].
  Qed.
  Lemma loop_append {A B} (f : A -> result (list B)) (g : A -> list B) : forall l acc, (forall x, In x l -> f x = Ok (g x)) ->
    loopM (fun acc x => bind (f x) (fun es => Ok (acc ++ es))) l acc = Ok (acc ++ flat_map g l).
  Proof.
    induction l as [|x l IH]; intros acc H; [cbn; rewrite app_nil_r; reflexivity|]. rewrite loopM_cons, (H x (or_introl eq_refl)). cbn [bind]. rewrite IH by (intros y Hy; apply H; right; exact Hy).
    cbn [flat_map]. rewrite app_assoc. reflexivity.
  Qed.
  Lemma loop_ext {A S} (f g : S -> A -> result S) : forall l s, (forall s x, In x l -> f s x = g s x) -> loopM f l s = loopM g l s.
  Proof.
    induction l as [|x l IH]; intros s H; [reflexivity|]. rewrite !loopM_cons, (H s x (or_introl eq_refl)). destruct (g s x); [|reflexivity]. cbn [bind]. apply IH. intros s' y Hy. apply H. right. exact Hy.
  Qed.
End Positions.

Lemma skipn_nth {A} : forall (l : list A) a e, nth_error l a = Some e -> skipn a l = e :: skipn (S a) l.
Proof. induction l as [|x l IH]; intros [|a] e H; try discriminate; [injection H as ->; reflexivity|]. cbn [skipn]. apply (IH a e H). Qed.
Lemma mapM_range {A} (trace : list (revent A)) : forall n a, a + n <= length trace -> mapM (event_at trace) (seq a n) = Ok (piece trace a n).
Proof.
  induction n as [|n IH]; intros a H; [reflexivity|]. cbn [seq mapM]. unfold event_at at 1. destruct (nth_error trace a) as [e|] eqn:E; [|apply nth_error_None in E; lia].
  cbn [SufModel.unwrap bind]. rewrite IH by lia. cbn [bind]. f_equal. unfold piece. rewrite (skipn_nth _ _ _ E). reflexivity.
Qed.
Lemma piece_positions {A} (trace : list (revent A)) : forall n a, a + n <= length trace -> piece trace a n = flat_map (event_of trace) (seq a n).
Proof.
  induction n as [|n IH]; intros a H; [reflexivity|]. cbn [seq flat_map]. unfold event_of at 1. destruct (nth_error trace a) as [e|] eqn:E; [|apply nth_error_None in E; lia].
  rewrite <- IH by lia. unfold piece. rewrite (skipn_nth _ _ _ E). reflexivity.
Qed.
Lemma trace_positions {A} (trace : list (revent A)) : flat_map (event_of trace) (seq 0 (length trace)) = trace.
Proof. rewrite <- piece_positions by lia. unfold piece. cbn [skipn]. apply firstn_all. Qed.

Section NewTrace.
  Context {A D : Type}.
  Variables (strat : strategy A) (make : instance D -> A).

  Definition filler (trace : list (revent A)) (a b : nat) : list (revent A) :=
    match strat with DontInsert => [] | InsertSingle u => [REvent u None] | InsertAll => piece trace a (b - a) end.
  Definition made (trace : list (revent A)) (x : instance D) : list (revent A) := [REvent (make x) (Some (piece trace (in_start x) (in_length x)))].

  Lemma new_trace_visits l trace : ordered 0 (length trace) l -> new_trace strat make l trace = Ok (flat_map (pick (filler trace) (made trace)) (r_process 0 (length trace) l)).
  Proof.
    intros Ho. unfold new_trace.
    rewrite (loop_ext _ (fun acc v => bind (match v with Unattached a b => new_unattached strat trace a b | Attached x => bind (new_attached make trace x) (fun e => Ok [e]) end) (fun es => Ok (acc ++ es)))).
    2:{ intros s [x|a b] _; [|reflexivity]. destruct (new_attached make trace x); reflexivity. }
    rewrite (loop_append _ (pick (filler trace) (made trace))); [reflexivity|].
    intros v Hv. apply (process_inside _ _ _ Ho) in Hv. destruct v as [x|a b]; cbn [pick].
    - unfold new_attached, range. rewrite mapM_range by lia. cbn [bind]. unfold made. replace (in_start x + in_length x - in_start x) with (in_length x) by lia. reflexivity.
    - unfold new_unattached, filler. destruct strat; try reflexivity. unfold range. rewrite mapM_range by lia. reflexivity.
  Qed.

  Lemma new_trace_proof l trace : ordered 0 (length trace) l -> new_trace strat make l trace = Ok (flat_map (place strat make trace l) (seq 0 (length trace))).
  Proof.
    intros Ho. rewrite new_trace_visits by exact Ho. f_equal.
    rewrite (process_positions (filler trace) (made trace) (fun first j => match strat with InsertAll => event_of trace j | InsertSingle u => if first then [REvent u None] else [] | DontInsert => [] end) (length trace)).
    - rewrite Nat.sub_0_r. apply fm_ext. intros j _. unfold at_pos, place, made. reflexivity.
    - intros a b Hab. unfold filler. destruct strat.
      + symmetry. apply fm_nil. reflexivity.
      + symmetry. apply seq_first. lia.
      + apply piece_positions. lia.
    - exact Ho.
  Qed.
End NewTrace.

Lemma mapM_combine {A B C} (P : A -> B -> Prop) (f : A * B -> result C) (g : A * B -> C) : forall l m, Forall2 P l m -> (forall a b, P a b -> f (a, b) = Ok (g (a, b))) -> mapM f (combine l m) = Ok (map g (combine l m)).
Proof. induction 1 as [|a b l m H _ IH]; intros Hf; [reflexivity|]. cbn [combine mapM map]. rewrite (Hf a b H). cbn [bind]. rewrite (IH Hf). reflexivity. Qed.
Lemma Forall2_combine {A B C} (P : A -> B -> Prop) (g : A * B -> C) : forall l m, Forall2 P l m -> Forall2 (fun p t => t = g p) (combine l m) (map g (combine l m)).
Proof. induction 1; cbn; constructor; auto. Qed.
Lemma Forall2_len {A B} (P : A -> B -> Prop) l m : Forall2 P l m -> length l = length m.
Proof. induction 1; cbn; congruence. Qed.

Lemma new_log_proof A D (strat : strategy A) (make : instance D -> A) log acts : in_order acts log ->
  exists new, new_log strat make log acts = Ok new /\ length new = length log /\
    Forall2 (fun p t => t = flat_map (place strat make (snd p) (fst p)) (seq 0 (length (snd p)))) (combine acts log) new.
Proof.
  intros H. unfold new_log. set (g := fun p : list (instance D) * list (revent A) => flat_map (place strat make (snd p) (fst p)) (seq 0 (length (snd p)))).
  rewrite (mapM_combine _ _ g _ _ H) by (intros l t Ho; apply new_trace_proof; exact Ho). exists (map g (combine acts log)).
  split; [reflexivity|]. split; [|apply (Forall2_combine _ g _ _ H)]. rewrite map_length, combine_length, (Forall2_len _ _ _ H). lia.
Qed.

(** * DontInsert *)
Lemma pick_attached {A D} (f : instance D -> list A) n : forall l lo, flat_map (pick (fun _ _ => []) f) (r_process lo n l) = flat_map f l.
Proof.
  induction l as [|x r IH]; intros lo; cbn [r_process]; [destruct (lo <? n); reflexivity|]. rewrite flat_map_app. destruct (lo <? in_start x); cbn [flat_map pick app]; rewrite IH; reflexivity.
Qed.
Lemma dont_insert_proof A D (make : instance D -> A) log acts : in_order acts log ->
  new_log DontInsert make log acts = Ok (map (fun p => map (fun x => REvent (make x) (Some (piece (snd p) (in_start x) (in_length x)))) (fst p)) (combine acts log)).
Proof.
  intros H. unfold new_log. apply (mapM_combine _ _ _ _ _ H). intros l t Ho. cbn [fst snd]. rewrite new_trace_visits by exact Ho. f_equal.
  rewrite (pick_attached (made make t)). unfold made. clear. induction l; cbn; congruence.
Qed.

(** * leaves *)
Section Leaves.
  Context {A : Type}.
  Notation ev := (revent A).

  Lemma revent_rect' (P : ev -> Prop) : (forall a, P (REvent a None)) -> (forall a es, Forall P es -> P (REvent a (Some es))) -> forall e, P e.
  Proof.
    intros H1 H2. fix IH 1. intros [a [es|]]; [|apply H1]. apply H2. induction es as [|e es IHes]; constructor; [apply IH|exact IHes].
  Qed.
  Lemma substitute_node acc a (es : list ev) : substitute acc (REvent a (Some es)) = fold_left (@substitute A) es acc.
  Proof. cbn [substitute]. revert acc. induction es as [|e es IH]; intros acc; [reflexivity|]. cbn [fold_left]. apply IH. Qed.
  Lemma substitute_acc : forall (e : ev) acc, substitute acc e = acc ++ substitute [] e.
  Proof.
    induction e as [a|a es IH] using revent_rect'; intros acc; [reflexivity|]. rewrite !substitute_node.
    assert (G : forall acc, fold_left (@substitute A) es acc = acc ++ fold_left (@substitute A) es []).
    { clear acc. induction IH as [|e es He Hes IHes]; intros acc; [cbn; rewrite app_nil_r; reflexivity|]. cbn [fold_left]. rewrite (IHes (substitute acc e)), (IHes (substitute [] e)), (He acc), app_assoc. reflexivity. }
    apply G.
  Qed.
  Lemma fold_substitute : forall (es : list ev) acc, fold_left (@substitute A) es acc = acc ++ flat_map (substitute []) es.
  Proof. induction es as [|e es IH]; intros acc; [cbn; rewrite app_nil_r; reflexivity|]. cbn [fold_left flat_map]. rewrite IH, substitute_acc, app_assoc. reflexivity. Qed.
  Definition flat (es : list ev) : list ev := flat_map (substitute []) es.
  Lemma substitute_flat a es : substitute [] (REvent a (Some es)) = flat es.
  Proof. rewrite substitute_node, fold_substitute. reflexivity. Qed.
  Lemma substitute_log_flat (log : list (list ev)) : substitute_log log = map flat log.
  Proof. unfold substitute_log. apply map_ext. intros t. apply fold_substitute. Qed.

  Lemma leaves_app : forall es ls r m : list ev, leaves es ls -> leaves r m -> leaves (es ++ r) (ls ++ m).
  Proof. intros es ls r m H Hr. induction H; cbn [app]; [exact Hr|constructor; assumption|]. rewrite <- app_assoc. constructor; assumption. Qed.
  Lemma leaves_flat : forall es, leaves es (flat es).
  Proof.
    assert (G : forall (e : ev) r m, leaves r m -> leaves (e :: r) (substitute [] e ++ m)).
    { induction e as [a|a es IH] using revent_rect'; intros r m Hr; [apply lv_leaf; exact Hr|]. rewrite substitute_flat. apply lv_node; [|exact Hr].
      clear -IH. induction IH as [|e es He _ IHes]; [constructor|]. apply He. exact IHes. }
    induction es as [|e es IH]; [constructor|]. apply G. exact IH.
  Qed.
  Lemma leaves_unique (es l : list ev) : leaves es l -> l = flat es.
  Proof. induction 1 as [|a r l _ IH|a es r l1 l2 _ IH1 _ IH2]; [reflexivity|subst l; reflexivity|]. subst. cbn. rewrite <- substitute_flat with (a := a). reflexivity. Qed.
  Lemma leaves_plain (es l : list ev) : leaves es l -> Forall (fun e => ev_under e = None) l.
  Proof. induction 1; [constructor|constructor; [reflexivity|assumption]|]. apply Forall_app. split; assumption. Qed.

  Lemma count_node a (es : list ev) : count_event (REvent a (Some es)) = fold_left (fun n e => n + count_event e) es 0.
  Proof. cbn [count_event]. generalize 0. induction es as [|e es IH]; intros n; [reflexivity|]. cbn [fold_left]. apply IH. Qed.
  Lemma fold_count {B} (f : B -> nat) : forall l n, fold_left (fun n e => n + f e) l n = n + list_sum (map f l).
  Proof. induction l as [|x l IH]; intros n; [cbn; lia|]. cbn [fold_left map]. rewrite IH. change (list_sum (f x :: map f l)) with (f x + list_sum (map f l)). lia. Qed.
  Lemma count_flat : forall e : ev, count_event e = length (substitute [] e).
  Proof.
    induction e as [a|a es IH] using revent_rect'; [reflexivity|]. rewrite count_node, fold_count, substitute_flat. cbn [Nat.add]. clear -IH.
    induction IH as [|e es He _ IHes]; [reflexivity|]. cbn [map list_sum fold_right flat flat_map]. rewrite app_length, <- He. change (flat_map (substitute []) es) with (flat es). rewrite <- IHes. reflexivity.
  Qed.
  Lemma count_trace es : list_sum (map (@count_event A) es) = length (flat es).
  Proof. induction es as [|e es IH]; [reflexivity|]. cbn [map flat flat_map]. rewrite app_length, <- count_flat. cbn [list_sum fold_right]. unfold list_sum in IH. rewrite IH. reflexivity. Qed.
  Lemma count_underlying_eq (log : list (list ev)) : count_underlying log = total_length (substitute_log log).
  Proof.
    unfold count_underlying, total_length. rewrite (fold_count (fun trace => fold_left (fun k e => k + count_event e) trace 0)), substitute_log_flat, map_map. cbn [Nat.add]. f_equal.
    apply map_ext. intros t. rewrite fold_count. apply count_trace.
  Qed.
End Leaves.

Lemma count_events_eq {A} (log : list (list A)) : count_events log = total_length log.
Proof. unfold count_events, total_length. apply (fold_count (@length A)). Qed.

Lemma substitute_proof A (log : list (list (revent A))) : Forall2 leaves log (substitute_log log) /\ forall other, Forall2 leaves log other -> other = substitute_log log.
Proof.
  rewrite substitute_log_flat. split.
  - induction log; constructor; [apply leaves_flat|assumption].
  - intros other H. induction H as [|t o log other H _ IH]; [reflexivity|]. cbn. rewrite IH, (leaves_unique _ _ H). reflexivity.
Qed.
Lemma count_underlying_proof A (log bottom : list (list (revent A))) : Forall2 leaves log bottom -> count_underlying log = total_length bottom.
Proof. intros H. rewrite count_underlying_eq, (proj2 (substitute_proof A log) _ H). reflexivity. Qed.

(** * InsertAll keeps the leaves *)
Lemma visits_whole {D} n : forall (l : list (instance D)) lo, ordered lo n l -> forall {A} (g : nat -> nat -> list A), (forall a b c, a <= b <= c -> g a b ++ g b c = g a c) -> (forall a, g a a = []) ->
  flat_map (pick g (fun x => g (in_start x) (in_start x + in_length x))) (r_process lo n l) = g lo n.
Proof.
  induction l as [|x r IH]; intros lo H A g Ha Hz; cbn [r_process].
  - cbn in H. destruct (Nat.ltb_spec lo n) as [E|E]; cbn; [apply app_nil_r|]. replace n with lo by lia. symmetry. apply Hz.
  - cbn [ordered] in H. destruct H as (H1 & H2 & H3). assert (Hle := ordered_le' _ _ _ H3). unfold in_end in *. rewrite flat_map_app. cbn [flat_map pick]. rewrite (IH _ H3 A g Ha Hz), Ha by lia.
    destruct (Nat.ltb_spec lo (in_start x)) as [E|E]; cbn [flat_map pick app]; [rewrite app_nil_r; apply Ha; lia|]. replace lo with (in_start x) by lia. reflexivity.
Qed.
Lemma piece_join {A} (t : list A) a b c : a <= b <= c -> piece t a (b - a) ++ piece t b (c - b) = piece t a (c - a).
Proof.
  intros H. unfold piece. replace (c - a) with ((b - a) + (c - b)) by lia. replace (skipn b t) with (skipn (b - a) (skipn a t)).
  - generalize (skipn a t). intros m. generalize (b - a) (c - b). clear. intros k j. revert k. induction m as [|x m IH]; intros [|k]; cbn [firstn skipn Nat.add app]; try reflexivity. 
    + destruct j; reflexivity.
    + rewrite IH. reflexivity.
  - replace b with (a + (b - a)) at 2 by lia. generalize (b - a). clear. intros k. revert t. induction a as [|a IH]; intros t; [reflexivity|]. destruct t as [|y t]; [destruct k; reflexivity|]. cbn. apply IH.
Qed.

Lemma flat_app {A} (a b : list (revent A)) : flat (a ++ b) = flat a ++ flat b.
Proof. apply flat_map_app. Qed.
Lemma flat_pick {A D} (f : nat -> nat -> list (revent A)) (g : instance D -> list (revent A)) vs : flat (flat_map (pick f g) vs) = flat_map (pick (fun a b => flat (f a b)) (fun x => flat (g x))) vs.
Proof. induction vs as [|v vs IH]; [reflexivity|]. cbn [flat_map]. rewrite flat_app, IH. destruct v; reflexivity. Qed.
Lemma keep_trace A D (make : instance D -> A) l trace new : ordered 0 (length trace) l -> new_trace InsertAll make l trace = Ok new -> flat new = flat trace.
Proof.
  intros Ho. rewrite new_trace_visits by exact Ho. intros [= <-]. rewrite flat_pick.
  rewrite (fm_ext _ (pick (fun a b => flat (piece trace a (b - a))) (fun x => flat (piece trace (in_start x) (in_start x + in_length x - in_start x))))).
  - rewrite (visits_whole (length trace) l 0 Ho (fun a b => flat (piece trace a (b - a)))).
    + rewrite Nat.sub_0_r. unfold piece. cbn [skipn]. rewrite firstn_all. reflexivity.
    + intros a b c H. rewrite <- flat_app, piece_join by exact H. reflexivity.
    + intros a. rewrite Nat.sub_diag. reflexivity.
  - intros [x|a b] _; cbn [pick filler]; [|reflexivity]. unfold made, flat at 1. cbn [flat_map]. rewrite app_nil_r, substitute_flat. replace (in_start x + in_length x - in_start x) with (in_length x) by lia. reflexivity.
Qed.
Lemma keep_log A D (make : instance D -> A) log acts new : in_order acts log -> new_log InsertAll make log acts = Ok new -> substitute_log new = substitute_log log.
Proof.
  intros H. rewrite !substitute_log_flat. unfold new_log. revert new. induction H as [|l t acts log Ho _ IH]; cbn [combine mapM]; intros new; [intros [= <-]; reflexivity|].
  cbn [fst snd]. destruct (new_trace InsertAll make l t) as [t'|] eqn:Et; [|discriminate]. cbn [bind]. destruct (mapM _ (combine acts log)) as [r|]; [|discriminate]. cbn [bind]. intros [= <-].
  cbn [map]. rewrite (keep_trace _ _ _ _ _ _ Ho Et), (IH r eq_refl). reflexivity.
Qed.

(** * number of events *)
Lemma filler_small {A D} (strat : strategy A) (make : instance D -> A) l trace new : ordered 0 (length trace) l -> new_trace strat make l trace = Ok new ->
  length new + list_sum (map in_length l) <= length trace + length l /\ (strat = InsertAll -> length new + list_sum (map in_length l) = length trace + length l).
Proof.
  intros Ho. rewrite new_trace_visits by exact Ho. intros [= <-].
  assert (G : forall l lo, ordered lo (length trace) l -> length (flat_map (pick (filler strat trace) (made make trace)) (r_process lo (length trace) l)) + list_sum (map in_length l) <= (length trace - lo) + length l /\
     (strat = InsertAll -> length (flat_map (pick (filler strat trace) (made make trace)) (r_process lo (length trace) l)) + list_sum (map in_length l) = (length trace - lo) + length l)).
  { assert (Hf : forall a b, a < b -> b <= length trace -> length (filler strat trace a b) <= b - a /\ (strat = InsertAll -> length (filler strat trace a b) = b - a)).
    { intros a b H1 H2. unfold filler. destruct strat; cbn [length]; [split; [lia|discriminate]|split; [lia|discriminate]|]. rewrite piece_length by lia. split; [lia|reflexivity]. }
    clear l Ho. induction l as [|x r IH]; intros lo H; cbn [r_process].
    - cbn in H. destruct (Nat.ltb_spec lo (length trace)) as [E|E]; cbn [flat_map pick app length].
      + rewrite app_nil_r. destruct (Hf lo (length trace) E (le_n _)) as [F1 F2]. cbn. split; [lia|]. intros Es. specialize (F2 Es). lia.
      + cbn. split; [lia|]. intros _. lia.
    - cbn [ordered] in H. destruct H as (H1 & H2 & H3). assert (Hle := ordered_le' _ _ _ H3). destruct (IH _ H3) as [I1 I2]. unfold in_end in *. rewrite flat_map_app, app_length. cbn [flat_map pick]. rewrite app_length. change (length (made make trace x)) with 1.
      change (list_sum (map in_length (x :: r))) with (in_length x + list_sum (map in_length r)).
      destruct (Nat.ltb_spec lo (in_start x)) as [E|E]; cbn [flat_map pick app length].
      + rewrite app_nil_r. destruct (Hf lo (in_start x) E ltac:(lia)) as [F1 F2]. split; [lia|]. intros Es. specialize (F2 Es). specialize (I2 Es). lia.
      + split; [lia|]. intros Es. specialize (I2 Es). lia. }
  destruct (G l 0 Ho) as [G1 G2]. rewrite Nat.sub_0_r in *. split; assumption.
Qed.
Lemma lengths_sum {D} : forall (l : list (instance D)) lo hi, ordered lo hi l -> length l <= list_sum (map in_length l).
Proof. induction l as [|x r IH]; intros lo hi H; [cbn; lia|]. cbn [ordered] in H. destruct H as (_ & H2 & H3). specialize (IH _ _ H3). change (list_sum (map in_length (x :: r))) with (in_length x + list_sum (map in_length r)). cbn [length]. lia. Qed.
Lemma shrink_proof A D (strat : strategy A) (make : instance D -> A) log acts new : in_order acts log -> new_log strat make log acts = Ok new ->
  count_events new <= count_events log /\
  count_events new + list_sum (map in_length (concat acts)) <= count_events log + length (concat acts) /\
  (strat = InsertAll -> count_events new + list_sum (map in_length (concat acts)) = count_events log + length (concat acts)).
Proof.
  intros H. rewrite !count_events_eq. unfold new_log. revert new.
  assert (G : forall new, mapM (fun p => new_trace strat make (fst p) (snd p)) (combine acts log) = Ok new ->
    length (concat acts) <= list_sum (map in_length (concat acts)) /\
    total_length new + list_sum (map in_length (concat acts)) <= total_length log + length (concat acts) /\
    (strat = InsertAll -> total_length new + list_sum (map in_length (concat acts)) = total_length log + length (concat acts))).
  { induction H as [|l t acts log Ho _ IH]; cbn [combine mapM]; intros new; [intros [= <-]; cbn; repeat split; lia|].
    cbn [fst snd]. destruct (new_trace strat make l t) as [t'|] eqn:Et; [|discriminate]. cbn [bind]. destruct (mapM _ (combine acts log)) as [r|]; [|discriminate]. cbn [bind]. intros [= <-].
    destruct (IH r eq_refl) as (I0 & I1 & I2). destruct (filler_small _ _ _ _ _ Ho Et) as [F1 F2]. pose proof (lengths_sum _ _ _ Ho) as F0.
    change (total_length (t' :: r)) with (length t' + total_length r). change (total_length (t :: log)) with (length t + total_length log). cbn [concat]. rewrite map_app, app_length, list_sum_app.
    split; [lia|]. split; [lia|]. intros Es. specialize (I2 Es). specialize (F2 Es). lia. }
  intros new E. destruct (G new E) as (G0 & G1 & G2). split; [lia|]. split; assumption.
Qed.

Lemma rounds_proof A D (make : instance D -> A) log later : rounds make log later ->
  substitute_log later = substitute_log log /\ count_underlying later = count_underlying log /\ count_events later <= count_events log.
Proof.
  induction 1 as [log|log acts new later Ho Hn _ [I1 [I2 I3]]]; [repeat split; lia|]. pose proof (keep_log _ _ _ _ _ _ Ho Hn) as K. destruct (shrink_proof _ _ _ _ _ _ _ Ho Hn) as [S1 _].
  split; [congruence|]. split; [rewrite I2, !count_underlying_eq, K; reflexivity|lia].
Qed.

(** * events outside of instances *)
Lemma unattached_proof A D (log : list (list (revent A))) (acts : list (list (instance D))) : in_order acts log ->
  exists r, unattached_log log acts = Ok r /\ length r = length log /\
  Forall2 (fun p t => t = flat_map (fun j => if inside (fst p) j then [] else event_of (snd p) j) (seq 0 (length (snd p)))) (combine acts log) r.
Proof.
  intros H. unfold unattached_log.
  set (g := fun p : list (revent A) * list (instance D) => flat_map (fun j => if inside (snd p) j then [] else event_of (fst p) j) (seq 0 (length (fst p)))).
  assert (H' : Forall2 (fun t l => ordered 0 (length t) l) log acts) by (clear -H; induction H; constructor; assumption).
  assert (E : forall t (l : list (instance D)), ordered 0 (length t) l -> unattached_trace t l = Ok (g (t, l))).
  { intros t l Ho. unfold unattached_trace.
    rewrite (loop_ext _ (fun acc v => bind (match v with Unattached a b => if (a <=? b) && (b <=? length t) then Ok (firstn (b - a) (skipn a t)) else rpanic | Attached _ => Ok [] end) (fun es => Ok (acc ++ es)))).
    2:{ intros s [x|a b] _; cbn [bind]; [rewrite app_nil_r; reflexivity|]. destruct ((a <=? b) && (b <=? length t)); reflexivity. }
    rewrite (loop_append _ (pick (fun a b => piece t a (b - a)) (fun _ => []))).
    - f_equal. cbn [app]. rewrite (process_positions (fun a b => piece t a (b - a)) (fun _ => []) (fun _ j => event_of t j) (length t)); [..|exact Ho].
      + rewrite Nat.sub_0_r. unfold g. cbn [fst snd]. apply fm_ext. intros j _. unfold at_pos. destruct (starts_here l j) as [x|] eqn:Es; [|reflexivity].
        apply find_some in Es as [E1 E2]. apply Nat.eqb_eq in E2. replace (inside l j) with true; [reflexivity|]. symmetry. apply inside_iff. exists x. split; [exact E1|].
        destruct (ordered_within l 0 _ Ho) as [W _]. destruct (W x E1) as (_ & W2 & _). unfold in_end. lia.
      + intros a b Hab. apply piece_positions. lia.
    - intros v Hv. apply (process_inside _ _ _ Ho) in Hv. destruct v as [x|a b]; cbn [pick]; [reflexivity|]. rewrite (proj2 (Nat.leb_le a b)), (proj2 (Nat.leb_le b (length t))) by lia. reflexivity. }
  rewrite (mapM_combine _ _ g _ _ H') by (intros t l Ho; apply E; exact Ho). exists (map g (combine log acts)). split; [reflexivity|].
  split; [rewrite map_length, combine_length, (Forall2_len _ _ _ H'); lia|]. clear. revert acts. induction log as [|t log IH]; intros [|l acts]; cbn; try constructor; [reflexivity|apply IH].
Qed.

(** * logs by activity *)
Lemma add_is_push {A} (d : dict pystr (list (list (revent A)))) n t : add_to_log d n t = dpush str_eq_dec d n t.
Proof. unfold add_to_log, dpush. destruct (dget str_eq_dec d n); reflexivity. Qed.
Definition adds {A} (ps : list (pystr * list (revent A))) (d : dict pystr (list (list (revent A)))) := fold_left (fun d p => add_to_log d (fst p) (snd p)) ps d.
Definition named {B} (n : pystr) (ps : list (pystr * B)) : list B := flat_map (fun p => if str_eq_dec (fst p) n then [snd p] else []) ps.
Definition there {B} (d : dict pystr (list B)) n : list B := match dget str_eq_dec d n with Some l => l | None => [] end.
Lemma adds_get {A} (ps : list (pystr * list (revent A))) n : forall d, (there d n = [] -> dget str_eq_dec d n = None) -> entry (adds ps d) n (there d n ++ named n ps).
Proof.
  induction ps as [|[m t] ps IH]; intros d Hd.
  - cbn. rewrite app_nil_r. unfold entry, there in *. destruct (dget str_eq_dec d n) as [[|x l]|] eqn:E; rewrite ?E; [specialize (Hd eq_refl); discriminate|reflexivity|reflexivity].
  - cbn [adds fold_left fst snd]. change (fold_left _ ps ?x) with (adds ps x). cbn [named flat_map fst snd]. change (flat_map _ ps) with (named n ps).
    assert (E : there (add_to_log d m t) n = there d n ++ if str_eq_dec m n then [t] else []).
    { unfold there. rewrite add_is_push, dget_dpush. destruct (str_eq_dec m n) as [->|Hn].
      - reflexivity.
      - rewrite app_nil_r. reflexivity. }
    rewrite app_assoc, <- E. apply IH. intros E0. rewrite E in E0. apply app_eq_nil in E0 as [E1 E2]. destruct (str_eq_dec m n) as [|Hn]; [discriminate|].
    rewrite add_is_push, dget_dpush. destruct (str_eq_dec m n); [contradiction|]. apply Hd. exact E1.
Qed.
Lemma adds_nodup {A} (ps : list (pystr * list (revent A))) : forall d, NoDup (dkeys d) -> NoDup (dkeys (adds ps d)).
Proof. induction ps as [|p ps IH]; intros d H; [exact H|]. apply IH. rewrite add_is_push. apply dpush_NoDup. exact H. Qed.

Definition group_pairs {A} (name_of : A -> pystr) (es : list (revent A)) : list (pystr * list (revent A)) :=
  flat_map (fun e => match ev_under e with Some _ => [(name_of (ev_about e), substitute [] e)] | None => [] end) es.
Lemma logs_from_log_adds {A} (name_of : A -> pystr) (log : list (list (revent A))) : logs_from_log name_of log = adds (flat_map (group_pairs name_of) log) [].
Proof.
  unfold logs_from_log. generalize (@nil (pystr * list (list (revent A)))). induction log as [|t log IH]; intros d; [reflexivity|]. cbn [fold_left flat_map]. unfold adds. rewrite fold_left_app. fold (adds (group_pairs name_of t) d).
  rewrite IH. f_equal. clear. revert d. induction t as [|e t IH]; intros d; [reflexivity|]. cbn [fold_left group_pairs flat_map]. rewrite IH. unfold adds. destruct (ev_under e); reflexivity.
Qed.
Lemma concat_pairs {A} (name_of : A -> pystr) (log : list (list (revent A))) : flat_map (group_pairs name_of) log = group_pairs name_of (concat log).
Proof. induction log as [|t log IH]; [reflexivity|]. cbn [flat_map concat]. rewrite IH. unfold group_pairs. rewrite flat_map_app. reflexivity. Qed.
Lemma logs_from_log_proof A (name_of : A -> pystr) (log : list (list (revent A))) : NoDup (dkeys (logs_from_log name_of log)) /\
  forall n, exists ts, Forall2 leaves (groups_named name_of n log) ts /\ entry (logs_from_log name_of log) n ts.
Proof.
  rewrite logs_from_log_adds. split; [apply adds_nodup; constructor|]. intros n. exists (map flat (groups_named name_of n log)). split.
  - induction (groups_named name_of n log); constructor; [apply leaves_flat|assumption].
  - replace (map flat (groups_named name_of n log)) with (there (@nil (pystr * list (list (revent A)))) n ++ named n (flat_map (group_pairs name_of) log)); [apply adds_get; reflexivity|].
    cbn [there dget app]. rewrite concat_pairs. unfold groups_named. induction (concat log) as [|[a [es|]] l IH]; [reflexivity| |exact IH].
    cbn [group_pairs flat_map ev_under ev_about]. unfold named. cbn [app flat_map fst snd]. change (flat_map _ (flat_map _ l)) with (named n (group_pairs name_of l)). rewrite map_app, <- IH. destruct (str_eq_dec (name_of a) n); [|reflexivity].
    cbn [map app]. rewrite substitute_flat. reflexivity.
Qed.

Section Instances.
  Context {A D : Type}.
  Variables (level_of : D -> nat) (node_name : D -> pystr) (level : nat).
  Definition stretch_pairs (p : list (instance D) * list (revent A)) : list (pystr * list (revent A)) :=
    flat_map (fun x => if level_of (an_data (in_node x)) =? level then [(node_name (an_data (in_node x)), piece (snd p) (in_start x) (in_length x))] else []) (fst p).
  Lemma instances_trace l (t : list (revent A)) : ordered 0 (length t) l -> forall d,
    loopM (fun logs v => match v with Attached x => handle_activity level_of node_name level t logs x | Unattached _ _ => Ok logs end) (r_process 0 (length t) l) d = Ok (adds (stretch_pairs (l, t)) d).
  Proof.
    intros Ho d.
    set (h := fun x : instance D => if level_of (an_data (in_node x)) =? level then [(node_name (an_data (in_node x)), piece t (in_start x) (in_length x))] else []).
    assert (G : forall vs, (forall v, In v vs -> match v with Attached x => in_start x + in_length x <= length t | Unattached _ _ => True end) -> forall d,
      loopM (fun logs v => match v with Attached x => handle_activity level_of node_name level t logs x | Unattached _ _ => Ok logs end) vs d = Ok (adds (flat_map (pick (fun _ _ => []) h) vs) d)).
    { induction vs as [|v vs IH]; intros Hv e; [reflexivity|]. rewrite loopM_cons. assert (Hv' := fun w Hw => Hv w (or_intror Hw)). specialize (Hv v (or_introl eq_refl)). destruct v as [x|a b]; [|cbn [bind]; rewrite (IH Hv'); reflexivity].
      unfold handle_activity. cbn [flat_map pick]. unfold h at 1. rewrite Nat.eqb_sym. destruct (level_of (an_data (in_node x)) =? level); cbn [negb]; [|cbn [bind app]; apply (IH Hv')].
      unfold range. rewrite mapM_range by lia. cbn [bind]. rewrite (IH Hv'). replace (in_start x + in_length x - in_start x) with (in_length x) by lia. reflexivity. }
    rewrite G, pick_attached; [reflexivity|]. intros v Hv. apply (process_inside _ _ _ Ho) in Hv. destruct v; [lia|exact I].
  Qed.
  Lemma logs_from_instances_adds acts (log : list (list (revent A))) : in_order acts log -> logs_from_instances level_of node_name log acts level = Ok (adds (flat_map stretch_pairs (combine acts log)) []).
  Proof.
    intros H. unfold logs_from_instances. generalize (@nil (pystr * list (list (revent A)))). induction H as [|l t acts log Ho _ IH]; intros d; [reflexivity|].
    cbn [combine]. rewrite loopM_cons. cbn [fst snd]. rewrite (instances_trace l t Ho). cbn [bind flat_map]. rewrite IH. unfold adds. rewrite fold_left_app. reflexivity.
  Qed.
  Lemma logs_from_instances_proof acts (log : list (list (revent A))) : in_order acts log -> exists logs, logs_from_instances level_of node_name log acts level = Ok logs /\
    NoDup (dkeys logs) /\ forall n, entry logs n (stretches_named level_of node_name level n acts log).
  Proof.
    intros H. eexists. split; [apply logs_from_instances_adds; exact H|]. split; [apply adds_nodup; constructor|]. intros n.
    replace (stretches_named level_of node_name level n acts log) with (there (@nil (pystr * list (list (revent A)))) n ++ named n (flat_map stretch_pairs (combine acts log))); [apply adds_get; reflexivity|].
    cbn [there dget app]. unfold stretches_named. clear H. induction (combine acts log) as [|[l t] r IH]; [reflexivity|]. cbn [flat_map]. unfold named. rewrite flat_map_app. fold (named n (flat_map stretch_pairs r)). rewrite IH. f_equal.
    cbn [fst snd stretch_pairs]. unfold stretch_pairs. cbn [fst snd]. clear. induction l as [|x l IH]; [reflexivity|]. cbn [flat_map]. rewrite flat_map_app, IH. f_equal.
    destruct (level_of (an_data (in_node x)) =? level); [|reflexivity]. cbn [flat_map fst snd]. destruct (str_eq_dec (node_name (an_data (in_node x))) n); reflexivity.
  Qed.
  (** Both ways agree on a log without events below events. *)
  Lemma agree_proof (strat : strategy A) (make : instance D -> A) (name_of : A -> pystr) acts log new : in_order acts log -> Forall (Forall (fun e => ev_under e = None)) log ->
    (forall l x, In l acts -> In x l -> level_of (an_data (in_node x)) = level /\ name_of (make x) = node_name (an_data (in_node x))) ->
    new_log strat make log acts = Ok new -> logs_from_instances level_of node_name log acts level = Ok (logs_from_log name_of new).
  Proof.
    intros H Hp Hx Hn. rewrite logs_from_instances_adds by exact H. rewrite logs_from_log_adds. do 2 f_equal. revert new Hn Hp Hx. unfold new_log.
    assert (Hflat : forall es : list (revent A), Forall (fun e => ev_under e = None) es -> flat es = es /\ group_pairs name_of es = []).
    { induction 1 as [|[a [u|]] es He _ [I1 I2]]; [split; reflexivity|discriminate|]. split; [|exact I2]. unfold flat in *. cbn [flat_map substitute app]. rewrite I1. reflexivity. }
    assert (Hpiece : forall t a n, Forall (fun e : revent A => ev_under e = None) t -> Forall (fun e => ev_under e = None) (piece t a n)).
    { intros t a n Ht. rewrite Forall_forall in *. intros e He. apply Ht. unfold piece in He. apply firstn_In in He. apply skipn_In in He. exact He. }
    induction H as [|l t acts log Ho H IH]; intros new Hn Hp Hx; cbn [combine mapM] in Hn; [injection Hn as <-; reflexivity|].
    cbn [fst snd] in Hn. rewrite (new_trace_visits _ _ _ _ Ho) in Hn. cbn [bind] in Hn. destruct (mapM _ (combine acts log)) as [r|]; [|discriminate]. cbn [bind] in Hn. injection Hn as <-.
    inversion Hp as [|? ? Ht Hlog]; subst. cbn [combine flat_map]. rewrite (IH r eq_refl Hlog) by (intros l' x Hl; apply Hx; right; exact Hl). f_equal.
    assert (Hl := fun x => Hx l x (or_introl eq_refl)). clear -Ht Hl Hflat Hpiece Ho.
    assert (G : forall vs, (forall v, In v vs -> match v with Attached x => In x l | Unattached _ _ => True end) ->
      group_pairs name_of (flat_map (pick (filler strat t) (made make t)) vs) = flat_map (pick (fun _ _ => []) (fun x => [(node_name (an_data (in_node x)), piece t (in_start x) (in_length x))])) vs).
    { induction vs as [|v vs IH]; intros Hv; [reflexivity|]. cbn [flat_map]. unfold group_pairs. rewrite flat_map_app. fold (group_pairs name_of (flat_map (pick (filler strat t) (made make t)) vs)). rewrite IH by (intros w Hw; apply Hv; right; exact Hw). f_equal.
      specialize (Hv v (or_introl eq_refl)). destruct v as [x|a b]; cbn [pick].
      - unfold made. cbn [flat_map ev_under ev_about app]. rewrite substitute_flat, (proj1 (Hflat _ (Hpiece t _ _ Ht))), (proj2 (Hl x Hv)). reflexivity.
      - unfold filler. destruct strat; try reflexivity. apply (Hflat _ (Hpiece t _ _ Ht)). }
    rewrite G by (intros v Hv; apply (process_inside _ _ _ Ho) in Hv; destruct v; [apply Hv|exact I]). rewrite pick_attached. unfold stretch_pairs. cbn [fst snd]. apply fm_ext. intros x Hxl. rewrite (proj1 (Hl x Hxl)), Nat.eqb_refl. reflexivity.
  Qed.
End Instances.

(** * names *)
Lemma bracketed_cons p r : bracketed (p :: r) = str "(" ++ p ++ str ")" ++ match r with [] => [] | _ => str "::" ++ bracketed r end.
Proof. destruct r; [reflexivity|]. cbn [bracketed]. change (str ")::") with (str ")" ++ str "::"). rewrite <- !app_assoc. reflexivity. Qed.
Lemma name_proof A (name_of : A -> pystr) extract log (r : repeat_set) trace : nth_error log (rs_trace_index r) = Some trace -> rs_first_pos r + rs_length r <= length trace ->
  activity_name name_of extract log r = Ok (bracketed (map (fun e => part_name extract (name_of (ev_about e))) (piece trace (rs_first_pos r) (rs_length r)))).
Proof.
  intros Ht Hr. unfold activity_name. rewrite Ht. cbn [SufModel.unwrap bind]. unfold range. replace (rs_first_pos r + rs_length r - rs_first_pos r) with (rs_length r) by lia.
  set (stop := rs_first_pos r + rs_length r) in *.
  assert (G : forall n a acc, a + n = stop -> loopM (fun name i => bind (event_at trace i) (fun e => Ok (name ++ str "(" ++ part_name extract (name_of (ev_about e)) ++ str ")" ++
                 (if negb (i =? stop - 1) then str "::" else [])))) (seq a n) acc = Ok (acc ++ bracketed (map (fun e => part_name extract (name_of (ev_about e))) (piece trace a n)))).
  { induction n as [|n IH]; intros a acc E; [cbn; rewrite app_nil_r; reflexivity|]. cbn [seq]. rewrite loopM_cons. unfold event_at at 1. destruct (nth_error trace a) as [e|] eqn:En; [|apply nth_error_None in En; lia].
    cbn [SufModel.unwrap bind]. rewrite IH by lia. f_equal. unfold piece at 2. rewrite (skipn_nth _ _ _ En). cbn [firstn map]. fold (piece trace (S a) n). rewrite bracketed_cons, <- !app_assoc. do 4 f_equal.
    destruct n as [|n].
    - replace (a =? stop - 1) with true by (symmetry; apply Nat.eqb_eq; lia). reflexivity.
    - replace (a =? stop - 1) with false by (symmetry; apply Nat.eqb_neq; lia). cbn [negb].
      destruct (nth_error trace (S a)) as [e'|] eqn:En'; [|apply nth_error_None in En'; lia]. unfold piece. rewrite (skipn_nth _ _ _ En'). cbn [firstn map]. reflexivity. }
  rewrite (G (rs_length r) (rs_first_pos r) [] eq_refl). reflexivity.
Qed.
Lemma name_out_proof A (name_of : A -> pystr) extract (log : list (list (revent A))) (r : repeat_set) : 0 < rs_length r ->
  (forall trace, nth_error log (rs_trace_index r) = Some trace -> length trace < rs_first_pos r + rs_length r) -> activity_name name_of extract log r = rpanic.
Proof.
  intros Hl H. unfold activity_name. destruct (nth_error log (rs_trace_index r)) as [trace|]; [|reflexivity]. specialize (H trace eq_refl). cbn [SufModel.unwrap bind]. unfold range.
  replace (rs_first_pos r + rs_length r - rs_first_pos r) with (rs_length r) by lia.
  assert (G : forall (f : pystr -> nat -> revent A -> pystr) n a acc, 0 < n -> length trace < a + n -> loopM (fun name i => bind (event_at trace i) (fun e => Ok (f name i e))) (seq a n) acc = rpanic).
  { intros f. induction n as [|n IH]; intros a acc Hn Hlt; [lia|]. cbn [seq]. rewrite loopM_cons. unfold event_at at 1. destruct (nth_error trace a) as [e|] eqn:En; [|reflexivity]. cbn [SufModel.unwrap bind].
    assert (a < length trace) by (apply nth_error_Some; congruence). apply IH; lia. }
  apply (G (fun name i e => _)); assumption.
Qed.
Lemma split_first {A} (c : A) : forall p q r s, ~ In c p -> ~ In c q -> p ++ c :: r = q ++ c :: s -> p = q /\ r = s.
Proof.
  induction p as [|x p IH]; intros [|y q] r s Hp Hq E; cbn in E.
  - injection E as ->. split; reflexivity.
  - injection E as -> _. exfalso. apply Hq. left. reflexivity.
  - injection E as -> _. exfalso. apply Hp. left. reflexivity.
  - injection E as -> E. apply IH in E as [-> ->]; [split; reflexivity|intros H; apply Hp; right; exact H|intros H; apply Hq; right; exact H].
Qed.
Lemma bracketed_injective_proof : forall ps qs, Forall (fun p => ~ In closing p) ps -> Forall (fun p => ~ In closing p) qs -> bracketed ps = bracketed qs -> ps = qs.
Proof.
  induction ps as [|p ps IH]; intros [|q qs] Hp Hq E; [reflexivity|rewrite bracketed_cons in E; discriminate|rewrite bracketed_cons in E; discriminate|].
  rewrite !bracketed_cons in E. cbn [app str] in E. change (str "(") with [40%N] in E. change (str ")") with [closing] in E. cbn [app] in E. injection E as E.
  inversion Hp; inversion Hq; subst. apply split_first in E as [-> E]; [|assumption|assumption]. f_equal. apply IH; [assumption|assumption|].
  destruct ps, qs; try discriminate E; [reflexivity|]. apply (app_inv_head (str "::")) in E. exact E.
Qed.
Lemma names_proof A (name_of : A -> pystr) extract log (r1 r2 : repeat_set) t1 t2 n :
  nth_error log (rs_trace_index r1) = Some t1 -> nth_error log (rs_trace_index r2) = Some t2 -> rs_first_pos r1 + rs_length r1 <= length t1 -> rs_first_pos r2 + rs_length r2 <= length t2 ->
  (forall e, In e t1 \/ In e t2 -> ~ In closing (part_name extract (name_of (ev_about e)))) ->
  activity_name name_of extract log r1 = Ok n -> activity_name name_of extract log r2 = Ok n ->
  map (fun e => part_name extract (name_of (ev_about e))) (piece t1 (rs_first_pos r1) (rs_length r1)) = map (fun e => part_name extract (name_of (ev_about e))) (piece t2 (rs_first_pos r2) (rs_length r2)).
Proof.
  intros H1 H2 L1 L2 Hc E1 E2. rewrite (name_proof _ _ _ _ _ _ H1 L1) in E1. rewrite (name_proof _ _ _ _ _ _ H2 L2) in E2. injection E1 as <-. injection E2 as E2. apply bracketed_injective_proof; [| |congruence];
  apply Forall_forall; intros p Hp; apply in_map_iff in Hp as (e & <- & He); apply Hc; [left|right]; unfold piece in He; apply firstn_In in He; apply skipn_In in He; exact He.
Qed.

Lemma extracted_proof A D (hash : A -> N) (name : D -> pystr) (log : list (list (revent A))) activities kind min_events fkind :
  exists acts, r_extract_instances name (map (map (fun e => hash (ev_about e))) log) activities kind min_events fkind = Ok acts /\ in_order acts log.
Proof.
  destruct (r_instances_proof D name (map (map (fun e => hash (ev_about e))) log) activities kind min_events fkind) as (r & Hr & HF). exists r. split; [exact Hr|]. clear Hr. unfold in_order.
  remember (map (map (fun e => hash (ev_about e))) log) as hs eqn:E. revert log E. induction HF as [|t l hs r [_ Ho] _ IH]; intros [|t' log] E; try discriminate; [constructor|].
  cbn [map] in E. injection E as E1 E2. constructor; [|apply IH; exact E2]. rewrite E1, map_length in Ho. exact Ho.
Qed.
Lemma part_shown extract name : shown_part extract name (part_name extract name).
Proof.
  unfold part_name, shown_part. destruct extract as [find|]; [|right; split; [discriminate|reflexivity]].
  destruct (find name) as [[[|s] e]|] eqn:E; cbn [Nat.eqb].
  - left. exists find, e. auto.
  - right. split; [|reflexivity]. intros f e' X. injection X as <-. rewrite E. discriminate.
  - right. split; [|reflexivity]. intros f e' X. injection X as <-. rewrite E. discriminate.
Qed.
Lemma shown_one extract name p p' : shown_part extract name p -> shown_part extract name p' -> p = p'.
Proof.
  intros [(f & e & E & Hf & ->)|[H ->]] [(f' & e' & E' & Hf' & ->)|[H' ->]]; [|exfalso; eapply H'; eassumption|exfalso; eapply H; eassumption|reflexivity].
  rewrite E in E'. injection E' as <-. rewrite Hf in Hf'. injection Hf' as <-. reflexivity.
Qed.
