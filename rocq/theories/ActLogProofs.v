(** Proofs about logs rewritten with activity instances. *)
From Coq Require Import Permutation Sorted.
From Verif Require Import Py PyFacts LogModel HashModel PatternModel PatternSpec TreeModel TreeSpec ActModel ActSpec ActProofs ActLogModel ActLogSpec.

(** * Visits and positions *)
Lemma covered_b_iff l j : covered_b l j = true <-> covered l j.
Proof.
  unfold covered_b. rewrite existsb_exists. split.
  - intros (x & Hx & H). apply andb_prop in H as [H1 H2]. exists x. split; [exact Hx|]. apply Nat.leb_le in H1. apply Nat.ltb_lt in H2. lia.
  - intros (x & Hx & H). exists x. split; [exact Hx|]. apply andb_true_intro. split; [apply Nat.leb_le|apply Nat.ltb_lt]; lia.
Qed.
Lemma covered_b_false l j : covered_b l j = false <-> ~ covered l j.
Proof. rewrite <- covered_b_iff. destruct (covered_b l j); split; intros; congruence || (exfalso; auto). Qed.

Lemma ordered_le : forall (l : list inst) lo hi, ordered lo hi l -> lo <= hi.
Proof. induction l as [|x r IH]; intros lo hi H; cbn in H; [exact H|]. destruct H as (H1 & H2 & H3). apply IH in H3. unfold in_end in H3. lia. Qed.
Lemma ordered_not_before : forall (l : list inst) lo hi j, ordered lo hi l -> j < lo -> covered_b l j = false.
Proof.
  induction l as [|x r IH]; intros lo hi j H Hj; [reflexivity|]. cbn in H. destruct H as (H1 & H2 & H3).
  change (((in_start x <=? j) && (j <? in_end x)) || covered_b r j = false).
  rewrite (IH _ _ j H3) by (unfold in_end; lia). rewrite orb_false_r.
  destruct (in_start x <=? j) eqn:E; [|reflexivity]. apply Nat.leb_le in E. lia.
Qed.
Lemma ordered_starting_before : forall (l : list inst) lo hi j, ordered lo hi l -> j < lo -> starting l j = None.
Proof.
  induction l as [|x r IH]; intros lo hi j H Hj; [reflexivity|]. cbn in H. destruct H as (H1 & H2 & H3).
  unfold starting. cbn. destruct (in_start x =? j) eqn:E; [apply Nat.eqb_eq in E; lia|]. apply (IH _ _ j H3). unfold in_end. lia.
Qed.

Definition visit_fun {A} (fg : nat -> nat -> list A) (fa : inst -> list A) (v : visit) : list A :=
  match v with Gap a b => fg a b | Act x => fa x end.
Definition local_at {A} (fa : inst -> list A) (pos : bool -> nat -> list A) (lo : nat) (l : list inst) (j : nat) : list A :=
  match starting l j with Some x => fa x | None => if covered_b l j then [] else pos ((j =? lo) || covered_b l (j - 1)) j end.

Lemma flat_map_ext_in {A B} (f g : A -> list B) l : (forall x, In x l -> f x = g x) -> flat_map f l = flat_map g l.
Proof. induction l as [|x r IH]; intros H; [reflexivity|]. cbn. rewrite (H x (or_introl eq_refl)), IH; [reflexivity|]. intros y Hy. apply H. right. exact Hy. Qed.
Lemma flat_map_nil {A B} (f : A -> list B) l : (forall x, In x l -> f x = []) -> flat_map f l = [].
Proof. intros H. rewrite (flat_map_ext_in f (fun _ => [])) by exact H. induction l; cbn; auto. apply IHl. intros; apply H; right; auto. Qed.
Lemma seq_split lo mid hi : lo <= mid <= hi -> seq lo (hi - lo) = seq lo (mid - lo) ++ seq mid (hi - mid).
Proof. intros H. replace (hi - lo) with ((mid - lo) + (hi - mid)) by lia. rewrite seq_app. f_equal. f_equal. lia. Qed.

Lemma visits_positions {A} (fg : nat -> nat -> list A) (fa : inst -> list A) (pos : bool -> nat -> list A) n :
  (forall a b, a < b <= n -> fg a b = flat_map (fun j => pos (j =? a) j) (seq a (b - a))) ->
  forall l lo, ordered lo n l -> flat_map (visit_fun fg fa) (process_trace_activities lo n l) = flat_map (local_at fa pos lo l) (seq lo (n - lo)).
Proof.
  intros Hg. induction l as [|x r IH]; intros lo H.
  - cbn [process_trace_activities]. destruct (lo <? n) eqn:E.
    + apply Nat.ltb_lt in E. cbn. rewrite app_nil_r, Hg by lia. apply flat_map_ext_in. intros j _. unfold local_at. cbn. rewrite orb_false_r. reflexivity.
    + apply Nat.ltb_ge in E. replace (n - lo) with 0 by lia. reflexivity.
  - cbn [ordered] in H. destruct H as (H1 & H2 & H3). assert (Hle := ordered_le _ _ _ H3). unfold in_end in Hle, H3.
    cbn [process_trace_activities]. rewrite flat_map_app. cbn [flat_map visit_fun].
    rewrite (seq_split lo (in_start x) n) by lia. rewrite (seq_split (in_start x) (in_start x + in_length x) n) by lia.
    rewrite !flat_map_app. rewrite IH by exact H3. f_equal; [|f_equal].
    + assert (Hp : forall j, In j (seq lo (in_start x - lo)) -> local_at fa pos lo (x :: r) j = pos (j =? lo) j).
      { intros j Hj. apply in_seq in Hj. unfold local_at.
        assert (Hs : starting (x :: r) j = None).
        { unfold starting. cbn. destruct (in_start x =? j) eqn:E; [apply Nat.eqb_eq in E; lia|]. apply (ordered_starting_before r _ _ j H3). lia. }
        assert (Hc : forall i, i < in_start x -> covered_b (x :: r) i = false).
        { intros i Hi. change (((in_start x <=? i) && (i <? in_end x)) || covered_b r i = false).
          rewrite (ordered_not_before r _ _ i H3) by lia. destruct (in_start x <=? i) eqn:E; [apply Nat.leb_le in E; lia|reflexivity]. }
        rewrite Hs, !Hc by lia. rewrite orb_false_r. reflexivity. }
      rewrite (flat_map_ext_in _ _ _ Hp). destruct (lo <? in_start x) eqn:E.
      * apply Nat.ltb_lt in E. cbn. rewrite app_nil_r. apply Hg. lia.
      * apply Nat.ltb_ge in E. replace (in_start x - lo) with 0 by lia. reflexivity.
    + replace (in_start x + in_length x - in_start x) with (S (in_length x - 1)) by lia. cbn [seq flat_map].
      rewrite (flat_map_nil _ (seq (S (in_start x)) (in_length x - 1))).
      2:{ intros j Hj. apply in_seq in Hj. unfold local_at. assert (Hs : starting (x :: r) j = None).
          { unfold starting. cbn. destruct (in_start x =? j) eqn:E; [apply Nat.eqb_eq in E; lia|]. apply (ordered_starting_before r _ _ j H3). lia. }
          rewrite Hs. replace (covered_b (x :: r) j) with true; [reflexivity|]. symmetry. apply covered_b_iff. exists x. split; [left; reflexivity|]. unfold in_end. lia. }
      rewrite app_nil_r. unfold local_at, starting. cbn. rewrite Nat.eqb_refl. reflexivity.
    + apply flat_map_ext_in. intros j Hj. apply in_seq in Hj. unfold local_at.
      assert (Hs : starting (x :: r) j = starting r j). { unfold starting. cbn. destruct (in_start x =? j) eqn:E; [apply Nat.eqb_eq in E; lia|reflexivity]. }
      assert (Hc : forall i, covered_b (x :: r) i = ((in_start x <=? i) && (i <? in_end x)) || covered_b r i) by reflexivity.
      rewrite Hs, !Hc. replace (j <? in_end x) with false by (symmetry; apply Nat.ltb_ge; unfold in_end; lia). rewrite andb_false_r. cbn [orb].
      destruct (starting r j); [reflexivity|]. destruct (covered_b r j); [reflexivity|]. f_equal.
      destruct (j =? in_start x + in_length x) eqn:E.
      * apply Nat.eqb_eq in E. replace (in_start x <=? j - 1) with true by (symmetry; apply Nat.leb_le; lia).
        replace (j - 1 <? in_end x) with true by (symmetry; apply Nat.ltb_lt; unfold in_end; lia). cbn. rewrite orb_true_r. reflexivity.
      * apply Nat.eqb_neq in E. replace (j - 1 <? in_end x) with false by (symmetry; apply Nat.ltb_ge; unfold in_end; lia).
        rewrite andb_false_r. cbn [orb]. replace (j =? lo) with false by (symmetry; apply Nat.eqb_neq; lia). reflexivity.
Qed.

(** Gaps met are inside the trace. *)
Lemma visits_inside n : forall l lo, ordered lo n l -> forall v, In v (process_trace_activities lo n l) ->
  match v with Gap a b => lo <= a < b /\ b <= n | Act x => In x l /\ lo <= in_start x /\ in_end x <= n end.
Proof.
  induction l as [|x r IH]; intros lo H v Hv; cbn [process_trace_activities] in Hv.
  - destruct (lo <? n) eqn:E; [|destruct Hv]. apply Nat.ltb_lt in E. destruct Hv as [<-|[]]. lia.
  - cbn [ordered] in H. destruct H as (H1 & H2 & H3). assert (Hle := ordered_le _ _ _ H3). apply in_app_or in Hv as [Hv|[<-|Hv]].
    + destruct (lo <? in_start x) eqn:E; [|destruct Hv]. apply Nat.ltb_lt in E. destruct Hv as [<-|[]]. unfold in_end in Hle. lia.
    + split; [left; reflexivity|]. lia.
    + specialize (IH _ H3 v Hv). destruct v as [a b|y]; unfold in_end in *; [lia|]. destruct IH as (I1 & I2). split; [right; exact I1|]. lia.
Qed.

(** * The rewritten trace *)
Lemma slice_of_piece {A} (l : list A) a n : slice_of l a (a + n) = piece l a n.
Proof. unfold slice_of, piece. f_equal. lia. Qed.

Lemma mapM_flat {A B C} (f : A -> result B) (g : A -> B) (k : B -> list C) l :
  (forall x, In x l -> f x = Ok (g x)) -> mapM f l = Ok (map g l).
Proof.
  induction l as [|x r IH]; intros H; [reflexivity|]. cbn. rewrite (H x (or_introl eq_refl)). cbn.
  rewrite IH; [reflexivity|]. intros y Hy. apply H. right. exact Hy.
Qed.

Lemma underlying_acts_ok es : (forall e, In e es -> acts_ok e) -> mapM get_underlying_activities es = Ok (map acts_of es).
Proof.
  intros H. apply (mapM_flat _ acts_of (fun x => x)). intros e He. unfold get_underlying_activities. destruct (H e He) as [E|E].
  - rewrite E. reflexivity.
  - unfold acts_of. rewrite E. reflexivity.
Qed.

Lemma piece_sub {A} (l : list A) a n x : In x (piece l a n) -> In x l.
Proof. unfold piece. intros H. rewrite <- (firstn_skipn a l). apply in_or_app. right. rewrite <- (firstn_skipn n (skipn a l)). apply in_or_app. left. exact H. Qed.

Lemma activity_event_ok uh es x : (forall e, In e es -> acts_ok e) -> activity_event uh es x = Ok (event_of uh es x).
Proof.
  intros H. unfold activity_event. rewrite slice_of_piece, underlying_acts_ok by (intros e He; apply H; eapply piece_sub; exact He).
  cbn [bind]. unfold event_of. rewrite <- flat_map_concat_map. destruct uh; reflexivity.
Qed.

Lemma index_range_ok {A} (l : list A) a b : a <= b -> b <= length l ->
  index_range l a b = Ok (flat_map (fun j => match nth_error l j with Some e => [e] | None => [] end) (seq a (b - a))).
Proof.
  intros Hab Hb. unfold index_range, range.
  enough (forall n a, a + n <= length l -> mapM (fun i => match nth_error l i with Some x => Ok x | None => Err IndexError end) (seq a n) = Ok (flat_map (fun j => match nth_error l j with Some e => [e] | None => [] end) (seq a n))) as E by (apply E; lia).
  clear. induction n as [|n IH]; intros a H; [reflexivity|]. cbn. destruct (nth_error l a) eqn:E; [|apply nth_error_None in E; lia].
  cbn. rewrite IH by lia. reflexivity.
Qed.

Lemma visit_events_ok uh st es l v : st <> OtherStrategy -> (forall e, In e es -> acts_ok e) -> ordered 0 (length es) l ->
  In v (process_trace_activities 0 (length es) l) ->
  visit_events uh st es v = Ok (visit_fun (fun a b => match undefined_events st es a b with Ok l => l | Err _ => [] end) (fun x => [event_of uh es x]) v).
Proof.
  intros Hst Ha Ho Hv. destruct v as [a b|x]; cbn.
  - assert (Hin := visits_inside _ _ _ Ho _ Hv). cbn in Hin. destruct st; cbn; try reflexivity; [|congruence]. rewrite index_range_ok by lia. reflexivity.
  - rewrite activity_event_ok by exact Ha. reflexivity.
Qed.

Lemma seq_first_flat {A} (x : list A) a n : 0 < n -> flat_map (fun j => if j =? a then x else []) (seq a n) = x.
Proof.
  destruct n as [|n]; [lia|]. intros _. cbn. rewrite Nat.eqb_refl. rewrite flat_map_nil; [apply app_nil_r|].
  intros j Hj. apply in_seq in Hj. destruct (j =? a) eqn:E; [apply Nat.eqb_eq in E; lia|reflexivity].
Qed.

Lemma rewritten_proof uh st l t : st <> OtherStrategy -> ordered 0 (length (t_events t)) l -> (forall e, In e (t_events t) -> acts_ok e) ->
  new_trace_from_activities uh st l t = Ok (trace_of_events (flat_map (at_position uh st (t_events t) l) (seq 0 (length (t_events t))))).
Proof.
  intros Hst Ho Ha. unfold new_trace_from_activities. set (es := t_events t) in *.
  set (fg := fun a b => match undefined_events st es a b with Ok l => l | Err _ => [] end). set (fa := fun x => [event_of uh es x]).
  rewrite (mapM_flat _ (visit_fun fg fa) (fun x => x)).
  2:{ intros v Hv. apply (visit_events_ok uh st es l v Hst Ha Ho Hv). }
  cbn [bind]. f_equal. f_equal. rewrite <- flat_map_concat_map.
  rewrite (visits_positions fg fa (uncovered_part st es) (length es)); [|..].
  - rewrite Nat.sub_0_r. apply flat_map_ext_in. intros j _. unfold local_at, at_position, fa, run_start. reflexivity.
  - intros a b Hab. unfold fg. destruct st; cbn [undefined_events uncovered_part].
    + symmetry. apply flat_map_nil. reflexivity.
    + symmetry. apply seq_first_flat. lia.
    + rewrite index_range_ok by lia. reflexivity.
    + congruence.
  - exact Ho.
Qed.

Lemma mapM_zip_all {A B C} (f : A * B -> result C) (g : A * B -> C) l : (forall p, In p l -> f p = Ok (g p)) -> mapM f l = Ok (map g l).
Proof. intros H. apply (mapM_flat f g (fun _ => @nil nat)). exact H. Qed.

Lemma Forall2_map_fun {A B} (g : A -> B) l : Forall2 (fun p y => y = g p) l (map g l).
Proof. induction l; cbn; constructor; auto. Qed.

Lemma rewritten_log_proof uh st (l : eventlog) acts : st <> OtherStrategy ->
  Forall2 (fun a t => ordered 0 (length (t_events t)) a /\ forall e, In e (t_events t) -> acts_ok e) acts (l_traces l) ->
  exists ts, create_new_log_from_activities l acts uh st = Ok (log_of_traces ts) /\
    Forall2 (fun p t' => t' = trace_of_events (flat_map (at_position uh st (t_events (snd p)) (fst p)) (seq 0 (length (t_events (snd p)))))) (combine acts (l_traces l)) ts /\
    length ts = length (l_traces l).
Proof.
  intros Hst H. unfold create_new_log_from_activities, zip.
  set (g := fun p : list inst * trace => trace_of_events (flat_map (at_position uh st (t_events (snd p)) (fst p)) (seq 0 (length (t_events (snd p)))))).
  rewrite (mapM_zip_all _ g).
  - eexists. split; [reflexivity|]. split.
    + apply (Forall2_map_fun g).
    + rewrite map_length, combine_length. assert (E : length acts = length (l_traces l)) by (clear -H; induction H; cbn; congruence). lia.
  - intros [a t] Hp. cbn [fst snd]. assert (Hat : ordered 0 (length (t_events t)) a /\ forall e, In e (t_events t) -> acts_ok e).
    { clear -H Hp. induction H as [|a' t' la lt Hh Ht IH]; cbn in Hp; [destruct Hp|]. destruct Hp as [E|Hp]; [injection E as <- <-; exact Hh|auto]. }
    destruct Hat as [H1 H2]. rewrite (rewritten_proof uh st a t Hst H1 H2). reflexivity.
Qed.

(** ** Counting *)
Lemma starting_in l j x : starting l j = Some x -> In x l /\ in_start x = j.
Proof. unfold starting. intros H. apply find_some in H as [H1 H2]. apply Nat.eqb_eq in H2. auto. Qed.

Lemma positions_dont : forall {A} (fa : inst -> list A) l lo hi, ordered lo hi l ->
  flat_map (fun j => match starting l j with Some x => fa x | None => [] end) (seq lo (hi - lo)) = flat_map fa l.
Proof.
  intros A fa l lo hi H.
  assert (P := visits_positions (fun _ _ => []) fa (fun _ _ => []) hi ltac:(intros; symmetry; apply flat_map_nil; reflexivity) l lo H).
  rewrite (flat_map_ext_in _ (local_at fa (fun _ _ => []) lo l)) by (intros j _; unfold local_at; destruct (starting l j); [reflexivity|destruct (covered_b l j); reflexivity]).
  rewrite <- P. clear P H. revert lo. induction l as [|x r IH]; intros lo; cbn [process_trace_activities].
  - destruct (lo <? hi); reflexivity.
  - rewrite flat_map_app. replace (flat_map (visit_fun (fun _ _ => []) fa) (if lo <? in_start x then [Gap lo (in_start x)] else [])) with (@nil A) by (destruct (lo <? in_start x); reflexivity).
    cbn. rewrite IH. reflexivity.
Qed.

Lemma dont_insert_proof uh l t : ordered 0 (length (t_events t)) l -> (forall e, In e (t_events t) -> acts_ok e) ->
  new_trace_from_activities uh DontInsert l t = Ok (trace_of_events (map (event_of uh (t_events t)) l)).
Proof.
  intros Ho Ha. rewrite rewritten_proof by (congruence || assumption). do 2 f_equal.
  rewrite <- (Nat.sub_0_r (length (t_events t))) at 1.
  rewrite (flat_map_ext_in _ (fun j => match starting l j with Some x => [event_of uh (t_events t) x] | None => [] end)).
  - rewrite (positions_dont (fun x => [event_of uh (t_events t) x]) l 0 _ Ho). rewrite flat_map_concat_map. induction l; cbn; [reflexivity|]. cbn in Ho. f_equal. clear. induction l; cbn; congruence.
  - intros j _. unfold at_position. cbn. destruct (starting l j); [reflexivity|]. destruct (covered_b l j); reflexivity.
Qed.

Lemma unattached_proof l t : ordered 0 (length (t_events t)) l ->
  unattached_events l t = flat_map (fun j => if covered_b l j then [] else match nth_error (t_events t) j with Some e => [e] | None => [] end) (seq 0 (length (t_events t))).
Proof.
  intros Ho. unfold unattached_events.
  assert (P := visits_positions (slice_of (t_events t)) (fun _ => []) (fun _ j => match nth_error (t_events t) j with Some e => [e] | None => [] end) (length (t_events t))).
  rewrite (flat_map_ext_in _ (visit_fun (slice_of (t_events t)) (fun _ => []))) by (intros [a b|x] _; reflexivity).
  rewrite P; [|..|exact Ho].
  - rewrite Nat.sub_0_r. apply flat_map_ext_in. intros j _. unfold local_at. destruct (starting l j) as [x|] eqn:E; [|reflexivity].
    apply starting_in in E as [E1 E2]. replace (covered_b l j) with true; [reflexivity|]. symmetry. apply covered_b_iff. exists x. split; [exact E1|].
    destruct (ordered_within l 0 _ Ho) as [W _]. destruct (W x E1) as (_ & W2 & _). unfold in_end. lia.
  - intros a b Hab. unfold slice_of. assert (Hl : b <= length (t_events t)) by lia. remember (b - a) as k. assert (Hk : a + k <= length (t_events t)) by lia. clear -Hk.
    revert a Hk. induction k as [|k IH]; intros a Hk; [reflexivity|]. cbn [seq flat_map].
    destruct (nth_error (t_events t) a) as [e|] eqn:E; [|apply nth_error_None in E; lia].
    rewrite <- IH by lia. apply nth_error_split in E as (l1 & l2 & E1 & E2). rewrite E1, <- E2.
    rewrite skipn_app, skipn_all, Nat.sub_diag. replace (S (length l1)) with (length (l1 ++ [e])) by (rewrite app_length; cbn; lia).
    replace (l1 ++ e :: l2) with ((l1 ++ [e]) ++ l2) by (rewrite <- app_assoc; reflexivity). rewrite skipn_app, skipn_all, Nat.sub_diag. reflexivity.
Qed.

(** * Underlying events *)
Definition expand (e : event) : result (list event) :=
  match eget e underlying_events_key with None => Ok [e] | Some v => substitute_value v end.
Lemma substitute_nil : substitute_original_events [] = Ok [].
Proof. reflexivity. Qed.
Lemma substitute_cons e r : substitute_original_events (e :: r) =
  bind (expand e) (fun xs => bind (substitute_original_events r) (fun ys => Ok (xs ++ ys))).
Proof.
  unfold substitute_original_events, expand. cbn [substitute_value]. f_equal.
  unfold eget. generalize (@Ok (list event) [e]). intros ok. induction e as [|[k v] d IH]; [reflexivity|].
  cbn [dget]. destruct (str_eq_dec underlying_events_key k); [reflexivity|exact IH].
Qed.
Opaque substitute_original_events.

Lemma substitute_app a b : substitute_original_events (a ++ b) =
  bind (substitute_original_events a) (fun xs => bind (substitute_original_events b) (fun ys => Ok (xs ++ ys))).
Proof.
  induction a as [|e r IH]; cbn [app].
  - rewrite substitute_nil. cbn. destruct (substitute_original_events b); reflexivity.
  - rewrite !substitute_cons, IH. destruct (expand e) as [xs|]; [|reflexivity]. cbn. destruct (substitute_original_events r) as [ys|]; [|reflexivity].
    cbn. destruct (substitute_original_events b) as [zs|]; [|reflexivity]. cbn. rewrite app_assoc. reflexivity.
Qed.

Definition size (es : list event) : nat := value_size (VEvents es).
Lemma size_cons e r : size (e :: r) =
  S ((fix look (d : event) : nat := match d with [] => 0 | (_, v') :: d' => value_size v' + look d' end) e + size r).
Proof. reflexivity. Qed.
Lemma size_inside e es : eget e underlying_events_key = Some (VEvents es) -> forall r, size es + size r < size (e :: r).
Proof.
  intros H r. rewrite size_cons. enough (size es <= (fix look (d : event) : nat := match d with [] => 0 | (_, v') :: d' => value_size v' + look d' end) e) by lia.
  unfold eget in H. induction e as [|[k w] d IH]; [discriminate|]. cbn [dget] in H. destruct (str_eq_dec underlying_events_key k).
  - injection H as ->. unfold size. lia.
  - apply IH in H. lia.
Qed.
Lemma size_tail e r : size r < size (e :: r).
Proof. rewrite size_cons. lia. Qed.
Lemma size_app a b : size (a ++ b) = size a + size b.
Proof. induction a as [|e r IH]; [reflexivity|]. cbn [app]. rewrite !size_cons, IH. lia. Qed.
Opaque size.

Lemma expand_events e es : eget e underlying_events_key = Some (VEvents es) -> expand e = substitute_original_events es.
Proof. unfold expand. intros ->. reflexivity. Qed.
Lemma expand_leaf e : eget e underlying_events_key = None -> expand e = Ok [e].
Proof. unfold expand. intros ->. reflexivity. Qed.
Lemma expand_broken e v : eget e underlying_events_key = Some v -> (forall es, v <> VEvents es) -> expand e = Err TypeError.
Proof. unfold expand. intros -> H. destruct v; try reflexivity. exfalso. apply (H es). reflexivity. Qed.

Lemma value_events_dec v : (exists es, v = VEvents es) \/ (forall es, v <> VEvents es).
Proof. destruct v; try (right; intros ? ?; discriminate). left. eexists. reflexivity. Qed.

Lemma expands_complete es l : expands es l -> substitute_original_events es = Ok l.
Proof.
  induction 1 as [|e r l He Hr IH|e es r l1 l2 He H1 IH1 H2 IH2]; [reflexivity|..]; rewrite substitute_cons.
  - rewrite expand_leaf by exact He. rewrite IH. reflexivity.
  - rewrite (expand_events e es He), IH1, IH2. reflexivity.
Qed.
Lemma substitute_total es : (exists l, substitute_original_events es = Ok l /\ expands es l) \/ (substitute_original_events es = Err TypeError /\ broken es).
Proof.
  remember (size es) as n eqn:En. assert (Hn : size es <= n) by lia. clear En. revert es Hn.
  induction n as [n IH] using lt_wf_ind. intros [|e r] Hn; [left; exists []; split; [reflexivity|constructor]|].
  assert (Hr := IH (size r) ltac:(assert (T := size_tail e r); lia) r (le_n _)).
  rewrite substitute_cons.
  destruct (eget e underlying_events_key) as [v|] eqn:E.
  - destruct (value_events_dec v) as [[es ->]|Hv].
    + rewrite (expand_events e es E). assert (Hes := IH (size es) ltac:(assert (T := size_inside e _ E r); lia) es (le_n _)).
      destruct Hes as [(l1 & -> & H1)|[-> Hb]].
      * destruct Hr as [(l2 & -> & H2)|[-> Hb]].
        -- left. exists (l1 ++ l2). split; [reflexivity|]. eapply ex_node; eassumption.
        -- right. split; [reflexivity|]. inversion Hb; subst; [eapply br_here|eapply br_deep]; try eassumption; right; eassumption.
      * right. split; [reflexivity|]. eapply br_deep; [left; reflexivity|exact E|exact Hb].
    + rewrite (expand_broken e v E Hv). right. split; [reflexivity|]. eapply br_here; [left; reflexivity|exact E|exact Hv].
  - rewrite expand_leaf by exact E. destruct Hr as [(l2 & -> & H2)|[-> Hb]].
    + left. exists (e :: l2). split; [reflexivity|]. apply ex_leaf; assumption.
    + right. split; [reflexivity|]. inversion Hb; subst; [eapply br_here|eapply br_deep]; try eassumption; right; eassumption.
Qed.

Lemma expands_exact_proof es l : substitute_original_events es = Ok l <-> expands es l.
Proof.
  split; [|apply expands_complete]. intros H. destruct (substitute_total es) as [(l' & E & Hl)|[E _]]; rewrite E in H; [|discriminate].
  injection H as <-. exact Hl.
Qed.
Lemma expands_not_broken es l : expands es l -> ~ broken es.
Proof.
  induction 1 as [|e r l He Hr IH|e es r l1 l2 He H1 IH1 H2 IH2]; intros Hb.
  - inversion Hb as [? e' v Hin E Hv|? e' es' Hin E Hd]; subst; destruct Hin.
  - inversion Hb as [? e' v Hin E Hv|? e' es' Hin E Hd]; subst; (destruct Hin as [<-|Hin]; [congruence|]).
    + apply IH. eapply br_here; eassumption.
    + apply IH. eapply br_deep; eassumption.
  - inversion Hb as [? e' v Hin E Hv|? e' es' Hin E Hd]; subst; (destruct Hin as [<-|Hin]).
    + rewrite He in E. injection E as <-. exact (Hv es eq_refl).
    + apply IH2. eapply br_here; eassumption.
    + rewrite He in E. injection E as <-. auto.
    + apply IH2. eapply br_deep; eassumption.
Qed.
Lemma substitute_fails_proof es x : substitute_original_events es = Err x <-> x = TypeError /\ broken es.
Proof.
  destruct (substitute_total es) as [(l & E & Hl)|[E Hb]]; rewrite E; split.
  - discriminate.
  - intros [_ Hb]. exfalso. exact (expands_not_broken _ _ Hl Hb).
  - intros H. injection H as <-. auto.
  - intros [-> _]. reflexivity.
Qed.
Lemma leaves_proof es l : expands es l -> forall e, In e l -> eget e underlying_events_key = None.
Proof.
  induction 1 as [|e r l He Hr IH|e es r l1 l2 He H1 IH1 H2 IH2]; intros x Hx; [destruct Hx|..].
  - destruct Hx as [<-|Hx]; auto.
  - apply in_app_or in Hx as [Hx|Hx]; auto.
Qed.
Lemma expands_leaves l : (forall e, In e l -> eget e underlying_events_key = None) -> expands l l.
Proof. induction l as [|e r IH]; intros H; constructor; [apply H; left; reflexivity|]. apply IH. intros x Hx. apply H. right. exact Hx. Qed.
Lemma idempotent_proof es l : substitute_original_events es = Ok l -> substitute_original_events l = Ok l /\ forall e, In e l -> eget e underlying_events_key = None.
Proof. intros H. apply expands_exact_proof in H. assert (L := leaves_proof _ _ H). split; [|exact L]. apply expands_exact_proof, expands_leaves, L. Qed.

(** ** Queue loops *)
Lemma underlying_loop_spec : forall fuel (q : list event), size q < fuel ->
  (forall l, substitute_original_events q = Ok l -> exists l', underlying_loop fuel q = Ok l' /\ Permutation l l') /\
  (forall x, substitute_original_events q = Err x -> underlying_loop fuel q = Err x).
Proof.
  induction fuel as [|fuel IH]; intros q Hq; [lia|]. destruct q as [|e r].
  - split; intros l H; rewrite substitute_nil in H; [injection H as <-; exists []; split; [reflexivity|constructor]|discriminate].
  - cbn [underlying_loop]. rewrite substitute_cons. assert (T := size_tail e r). destruct (eget e underlying_events_key) as [v|] eqn:E.
    + destruct (value_events_dec v) as [[es ->]|Hv].
      * assert (S := size_inside e es E r). rewrite (expand_events e es E). assert (IH' := IH (r ++ es) ltac:(rewrite size_app; lia)). rewrite substitute_app in IH'.
        destruct (substitute_total es) as [(l1 & E1 & _)|[E1 _]]; rewrite E1 in *; destruct (substitute_total r) as [(l2 & E2 & _)|[E2 _]]; rewrite E2 in *; cbn in IH' |- *;
          destruct IH' as [I1 I2]; (split; intros x Hx; [|]); try discriminate; try (injection Hx as <-); try (apply I2; reflexivity).
        destruct (I1 _ eq_refl) as (l' & -> & P). exists l'. split; [reflexivity|]. eapply Permutation_trans; [apply Permutation_app_comm|exact P].
      * rewrite (expand_broken e v E Hv). split; intros x Hx; [discriminate|]. injection Hx as <-.
        destruct v; try reflexivity. exfalso. apply (Hv es). reflexivity.
    + rewrite (expand_leaf e E). cbn. destruct (IH r ltac:(lia)) as [I1 I2].
      destruct (substitute_original_events r) as [l2|x2] eqn:E2; cbn; split; intros x Hx; try discriminate; injection Hx as <-.
      * destruct (I1 _ eq_refl) as (l' & -> & P). exists (e :: l'). split; [reflexivity|]. constructor. exact P.
      * rewrite (I2 _ eq_refl). reflexivity.
Qed.
Lemma count_loop_eq : forall fuel q c, count_loop fuel q c = bind (underlying_loop fuel q) (fun l => Ok (c + length l)).
Proof.
  induction fuel as [|fuel IH]; intros q c; [reflexivity|]. destruct q as [|e r]; cbn [count_loop underlying_loop]; [cbn; f_equal; lia|].
  destruct (eget e underlying_events_key) as [[]|]; try reflexivity; [apply IH|]. rewrite IH.
  destruct (underlying_loop fuel r); cbn; [f_equal; lia|reflexivity].
Qed.

Lemma execute_proof e :
  (forall l, substitute_original_events [e] = Ok l -> exists l', execute_with_underlying_events e = Ok l' /\ Permutation l l') /\
  (forall x, substitute_original_events [e] = Err x -> execute_with_underlying_events e = Err x).
Proof. apply (underlying_loop_spec (S (size [e])) [e]). lia. Qed.
Lemma count_one e : count_underlying_events e = bind (substitute_original_events [e]) (fun l => Ok (length l)).
Proof.
  unfold count_underlying_events. rewrite count_loop_eq. destruct (execute_proof e) as [I1 I2]. unfold execute_with_underlying_events in *.
  destruct (substitute_original_events [e]) as [l|x].
  - destruct (I1 l eq_refl) as (l' & -> & P). cbn. f_equal. apply Permutation_length in P. congruence.
  - rewrite (I2 x eq_refl). reflexivity.
Qed.
Lemma count_events : forall es c, loopM (fun c e => bind (count_underlying_events e) (fun k => Ok (c + k))) es c =
  bind (substitute_original_events es) (fun l => Ok (c + length l)).
Proof.
  induction es as [|e r IH]; intros c.
  - rewrite substitute_nil. cbn. f_equal. lia.
  - rewrite loopM_cons, count_one. change (e :: r) with ([e] ++ r). rewrite substitute_app.
    destruct (substitute_original_events [e]) as [l|]; [|reflexivity]. cbn [bind]. rewrite IH.
    destruct (substitute_original_events r); cbn; [|reflexivity]. rewrite app_length. f_equal. lia.
Qed.
Lemma count_log_proof (l : eventlog) :
  calculate_underlying_events_count l = bind (substitute_original_events (flat_map t_events (l_traces l))) (fun es => Ok (length es)).
Proof.
  unfold calculate_underlying_events_count. enough (H : forall ts c, loopM (fun c t => loopM (fun c e => bind (count_underlying_events e) (fun k => Ok (c + k))) (t_events t) c) ts c = bind (substitute_original_events (flat_map t_events ts)) (fun es => Ok (c + length es))) by (rewrite H; reflexivity).
  clear l. induction ts as [|t r IH]; intros c.
  - cbn [flat_map]. rewrite substitute_nil. cbn. f_equal. lia.
  - rewrite loopM_cons, count_events. cbn [flat_map]. rewrite substitute_app. destruct (substitute_original_events (t_events t)); [|reflexivity].
    cbn [bind]. rewrite IH. destruct (substitute_original_events (flat_map t_events r)); cbn; [|reflexivity]. rewrite app_length. f_equal. lia.
Qed.

(** * Expanding the rewritten trace *)
Lemma substitute_flat_map {A} (f g : A -> list event) l : (forall x, In x l -> substitute_original_events (f x) = substitute_original_events (g x)) ->
  substitute_original_events (flat_map f l) = substitute_original_events (flat_map g l).
Proof.
  induction l as [|x r IH]; intros H; [reflexivity|]. cbn [flat_map]. rewrite !substitute_app, (H x (or_introl eq_refl)), IH; [reflexivity|].
  intros y Hy. apply H. right. exact Hy.
Qed.
Lemma event_of_expand uh es x : substitute_original_events [event_of uh es x] = substitute_original_events (piece es (in_start x) (in_length x)).
Proof.
  rewrite substitute_cons. replace (expand (event_of uh es x)) with (substitute_original_events (piece es (in_start x) (in_length x))) by (symmetry; apply expand_events; reflexivity).
  rewrite substitute_nil. destruct (substitute_original_events _); cbn; [rewrite app_nil_r|]; reflexivity.
Qed.
Lemma visits_rebuild {A} (es : list A) : forall l lo, ordered lo (length es) l ->
  flat_map (visit_fun (slice_of es) (fun x => piece es (in_start x) (in_length x))) (process_trace_activities lo (length es) l) = skipn lo es.
Proof.
  induction l as [|x r IH]; intros lo H; cbn [process_trace_activities].
  - cbn in H. destruct (lo <? length es) eqn:E.
    + cbn. rewrite app_nil_r. unfold slice_of. apply firstn_all2. rewrite skipn_length. lia.
    + apply Nat.ltb_ge in E. rewrite skipn_all2 by exact E. reflexivity.
  - cbn [ordered] in H. destruct H as (H1 & H2 & H3). assert (Hle := ordered_le _ _ _ H3). rewrite flat_map_app. cbn [flat_map visit_fun].
    unfold in_end in H3. rewrite (IH _ H3). unfold piece.
    assert (Hsk : forall a b (m : list A), skipn a (skipn b m) = skipn (b + a) m). { clear. intros a b. induction b as [|b IHb]; intros m; [reflexivity|]. destruct m; [rewrite !skipn_nil; reflexivity|]. cbn. apply IHb. }
    rewrite <- (Hsk (in_length x) (in_start x) es). rewrite firstn_skipn.
    destruct (lo <? in_start x) eqn:E; cbn.
    + apply Nat.ltb_lt in E. rewrite app_nil_r. unfold slice_of. replace (skipn (in_start x) es) with (skipn (in_start x - lo) (skipn lo es)) by (rewrite Hsk; f_equal; lia).
      apply firstn_skipn.
    + apply Nat.ltb_ge in E. f_equal. lia.
Qed.
Lemma index_range_slice {A} (l : list A) a b : a <= b -> b <= length l -> index_range l a b = Ok (slice_of l a b).
Proof.
  intros Hab Hb. unfold index_range, range, slice_of. remember (b - a) as k. assert (Hk : a + k <= length l) by lia. clear -Hk.
  revert a Hk. induction k as [|k IH]; intros a Hk; [reflexivity|]. cbn [seq mapM].
  destruct (nth_error l a) as [e|] eqn:E; [|apply nth_error_None in E; lia]. cbn [bind]. rewrite IH by lia. cbn [bind]. f_equal. symmetry.
  apply nth_error_split in E as (l1 & l2 & E1 & E2). rewrite E1, <- E2.
  rewrite skipn_app, skipn_all, Nat.sub_diag. replace (S (length l1)) with (length (l1 ++ [e])) by (rewrite app_length; cbn; lia).
  replace (l1 ++ e :: l2) with ((l1 ++ [e]) ++ l2) by (rewrite <- app_assoc; reflexivity). rewrite skipn_app, skipn_all, Nat.sub_diag. reflexivity.
Qed.
Lemma expand_back_proof uh l t t' : ordered 0 (length (t_events t)) l ->
  new_trace_from_activities uh InsertAllEvents l t = Ok t' ->
  substitute_original_events (t_events t') = substitute_original_events (t_events t).
Proof.
  intros Ho H. unfold new_trace_from_activities in H. destruct (mapM _ _) as [ess|] eqn:E; [|discriminate]. injection H as <-. cbn [t_events trace_of_events].
  transitivity (substitute_original_events (flat_map (visit_fun (slice_of (t_events t)) (fun x => piece (t_events t) (in_start x) (in_length x))) (process_trace_activities 0 (length (t_events t)) l))).
  2:{ rewrite visits_rebuild by exact Ho. reflexivity. }
  assert (Hin := visits_inside _ _ _ Ho). revert ess E. induction (process_trace_activities 0 (length (t_events t)) l) as [|v vs IH]; intros ess E.
  - injection E as <-. reflexivity.
  - cbn [mapM] in E. destruct (visit_events uh InsertAllEvents (t_events t) v) as [xs|] eqn:Ev; [|discriminate]. cbn [bind] in E.
    destruct (mapM _ vs) as [yss|]; [|discriminate]. injection E as <-. cbn [concat flat_map].
    rewrite !substitute_app. rewrite (IH (fun v Hv => Hin v (or_intror Hv)) yss eq_refl). f_equal.
    assert (Hv := Hin v (or_introl eq_refl)). destruct v as [a b|x]; cbn in Ev |- *.
    + rewrite index_range_slice in Ev by lia. injection Ev as <-. reflexivity.
    + destruct (activity_event uh (t_events t) x) as [e|] eqn:Ee; [|discriminate]. injection Ev as <-.
      unfold activity_event in Ee. rewrite slice_of_piece in Ee. destruct (mapM get_underlying_activities _) as [acts|]; [|discriminate]. cbn [bind] in Ee. injection Ee as <-.
      rewrite substitute_cons, (expand_events _ (piece (t_events t) (in_start x) (in_length x))) by reflexivity. rewrite substitute_nil. destruct (substitute_original_events (piece _ _ _)); cbn; [rewrite app_nil_r|]; reflexivity.
Qed.
Lemma length_proof uh l t t' : ordered 0 (length (t_events t)) l -> new_trace_from_activities uh InsertAllEvents l t = Ok t' ->
  length (t_events t') + list_sum (map (@in_length ndata) l) = length (t_events t) + length l.
Proof.
  intros Ho H. unfold new_trace_from_activities in H. destruct (mapM _ _) as [ess|] eqn:E; [|discriminate]. injection H as <-. cbn [t_events trace_of_events].
  set (es := t_events t) in *. enough (G : forall l lo ess, ordered lo (length es) l -> mapM (visit_events uh InsertAllEvents es) (process_trace_activities lo (length es) l) = Ok ess ->
    length (concat ess) + list_sum (map (@in_length ndata) l) = (length es - lo) + length l) by (specialize (G l 0 ess Ho E); lia).
  clear. induction l as [|x r IH]; intros lo ess Ho E; cbn [process_trace_activities] in E.
  - cbn in Ho. destruct (lo <? length es) eqn:El; cbn [mapM visit_events undefined_events] in E.
    + rewrite index_range_slice in E by (apply Nat.ltb_lt in El; lia). cbn in E. injection E as <-. cbn. rewrite app_nil_r. unfold slice_of. rewrite firstn_length, skipn_length. apply Nat.ltb_lt in El. lia.
    + injection E as <-. cbn. apply Nat.ltb_ge in El. lia.
  - cbn [ordered] in Ho. destruct Ho as (H1 & H2 & H3). assert (Hle := ordered_le _ _ _ H3). unfold in_end in *.
    assert (E' : exists xs e yss, ess = xs ++ [e] :: yss /\ length (concat xs) = in_start x - lo /\ mapM (visit_events uh InsertAllEvents es) (process_trace_activities (in_start x + in_length x) (length es) r) = Ok yss).
    { destruct (lo <? in_start x) eqn:El.
      - apply Nat.ltb_lt in El. cbn [app mapM visit_events undefined_events] in E. rewrite index_range_slice in E by lia. cbn [bind] in E.
        destruct (activity_event uh es x) as [e|]; [|discriminate]. cbn [bind] in E. destruct (mapM _ (process_trace_activities _ _ r)) as [yss|]; [|discriminate]. injection E as <-.
        exists [slice_of es lo (in_start x)], e, yss. split; [reflexivity|]. split; [|reflexivity]. cbn. rewrite app_nil_r. unfold slice_of. rewrite firstn_length, skipn_length. lia.
      - apply Nat.ltb_ge in El. cbn [app mapM visit_events undefined_events] in E. destruct (activity_event uh es x) as [e|]; [|discriminate]. cbn [bind] in E.
        destruct (mapM _ (process_trace_activities _ _ r)) as [yss|]; [|discriminate]. injection E as <-. exists [], e, yss. split; [reflexivity|]. split; [cbn; lia|reflexivity]. }
    destruct E' as (xs & e & yss & -> & Hx & Hy). specialize (IH _ _ H3 Hy). rewrite concat_app, app_length, Hx. cbn [concat]. rewrite app_length. cbn [length map list_sum fold_right] in *. 
    change (fold_right Nat.add 0 (map (@in_length ndata) r)) with (list_sum (map (@in_length ndata) r)). lia.
Qed.

(** * Adding instances in the gaps *)
Lemma visits_gaps n : forall l lo a b, ordered lo n l -> In (Gap a b) (process_trace_activities lo n l) <->
  lo <= a < b /\ b <= n /\ (forall j, a <= j < b -> ~ covered l j) /\ (a = lo \/ covered l (a - 1)) /\ (b = n \/ covered l b).
Proof.
  induction l as [|x r IH]; intros lo a b H; cbn [process_trace_activities].
  - cbn in H. destruct (lo <? n) eqn:E; [apply Nat.ltb_lt in E|apply Nat.ltb_ge in E].
    + split.
      * intros [G|[]]. injection G as <- <-. repeat split; try lia. intros j _ (y & [] & _).
      * intros (G1 & G2 & G3 & G4 & G5). left. f_equal; [destruct G4 as [->|(y & [] & _)]|destruct G5 as [->|(y & [] & _)]]; reflexivity.
    + split; [intros []|]. lia.
  - cbn [ordered] in H. destruct H as (H1 & H2 & H3). assert (Hle := ordered_le _ _ _ H3).
    assert (Hcov : forall j, covered (x :: r) j <-> in_start x <= j < in_end x \/ covered r j).
    { intros j. split; [intros (y & [<-|Hy] & Hj); [left; exact Hj|right; exists y; auto]|intros [Hj|(y & Hy & Hj)]; [exists x; split; [left; reflexivity|exact Hj]|exists y; split; [right; exact Hy|exact Hj]]]. }
    assert (Hr : forall j, covered r j -> in_end x <= j < n).
    { intros j (y & Hy & Hj). destruct (ordered_within r _ _ H3) as [W _]. specialize (W y Hy). lia. }
    rewrite in_app_iff. cbn [In]. rewrite (IH (in_start x + in_length x) a b H3). unfold in_end in *. split.
    + intros [G|[G|(G1 & G2 & G3 & G4 & G5)]]; [|discriminate|].
      * destruct (lo <? in_start x) eqn:E; [|destruct G]. apply Nat.ltb_lt in E. destruct G as [G|[]]. injection G as <- <-.
        repeat split; try lia. intros j Hj Hc. apply Hcov in Hc as [Hc|Hc]; [lia|]. apply Hr in Hc. lia. right. apply Hcov. left. lia.
      * repeat split; try lia.
        -- intros j Hj Hc. apply Hcov in Hc as [Hc|Hc]; [lia|]. exact (G3 j Hj Hc).
        -- right. apply Hcov. destruct G4 as [->|G4]; [left; lia|right; exact G4].
        -- destruct G5 as [G5|G5]; [left; exact G5|right; apply Hcov; right; exact G5].
    + intros (G1 & G2 & G3 & G4 & G5).
      destruct (le_lt_dec (in_start x + in_length x) a) as [Ha|Ha].
      * right. right. repeat split; try lia.
        -- intros j Hj Hc. apply (G3 j Hj). apply Hcov. right. exact Hc.
        -- destruct G4 as [->|G4]; [lia|]. apply Hcov in G4 as [G4|G4]; [left; lia|right; exact G4].
        -- destruct G5 as [G5|G5]; [left; exact G5|]. apply Hcov in G5 as [G5|G5]; [lia|right; exact G5].
      * left. assert (a < in_start x). { destruct (le_lt_dec (in_start x) a) as [Hs|Hs]; [|exact Hs]. exfalso. apply (G3 a); [lia|]. apply Hcov. left. lia. }
        assert (Ea : a = lo). { destruct G4 as [G4|G4]; [exact G4|]. apply Hcov in G4 as [G4|G4]; [lia|]. apply Hr in G4. lia. } subst a.
        destruct (lo <? in_start x) eqn:E; [|apply Nat.ltb_ge in E; lia]. left. f_equal.
        destruct (Nat.lt_trichotomy b (in_start x)) as [Hb|[Hb|Hb]]; [|congruence|].
        -- exfalso. destruct G5 as [G5|G5]; [lia|]. apply Hcov in G5 as [G5|G5]; [lia|]. apply Hr in G5. lia.
        -- exfalso. apply (G3 (in_start x)); [lia|]. apply Hcov. left. lia.
Qed.
Lemma gaps_proof l n a b : ordered 0 n l -> In (Gap a b) (process_trace_activities 0 n l) <-> gap l n a b.
Proof. intros H. rewrite (visits_gaps n l 0 a b H). unfold gap. split; intros (G1 & G2 & G3); repeat split; try lia; apply G3 || tauto. Qed.

Lemma sort_start_perm l : Permutation (sort_start l) l.
Proof.
  induction l as [|x r IH]; [constructor|]. unfold sort_start in *. cbn. transitivity (x :: fold_right insert_start [] r); [|constructor; exact IH].
  generalize (fold_right insert_start [] r) as m. clear. induction m as [|y m IH]; cbn; [constructor; constructor|].
  destruct (in_start x <=? in_start y); [apply Permutation_refl|]. transitivity (y :: x :: m); [constructor; exact IH|constructor].
Qed.
Definition le_start (x y : inst) : Prop := in_start x <= in_start y.
Lemma sort_start_sorted l : StronglySorted le_start (sort_start l).
Proof.
  induction l as [|x r IH]; [constructor|]. unfold sort_start in *. cbn. revert IH. generalize (fold_right insert_start [] r) as m. clear.
  induction m as [|y m IH]; intros H; cbn; [constructor; constructor|]. inversion H as [|? ? Hs Hf]; subst.
  destruct (in_start x <=? in_start y) eqn:E; [apply Nat.leb_le in E|apply Nat.leb_gt in E].
  - constructor; [exact H|]. constructor; [exact E|]. eapply Forall_impl; [|exact Hf]. unfold le_start. intros z Hz. lia.
  - constructor; [apply IH; exact Hs|]. assert (P : Permutation (insert_start x m) (x :: m)).
    { clear. induction m as [|z m IH]; cbn; [constructor; constructor|]. destruct (in_start x <=? in_start z); [apply Permutation_refl|]. transitivity (z :: x :: m); [constructor; exact IH|constructor]. }
    apply Permutation_sym in P. apply (Permutation_Forall P). constructor; [unfold le_start; lia|exact Hf].
Qed.
Lemma ordered_starts : forall (m : list inst) lo hi, ordered lo hi m -> forall x, In x m -> lo <= in_start x.
Proof. intros m lo hi H x Hx. destruct (ordered_within m _ _ H) as [W _]. apply W in Hx. lia. Qed.
Lemma sort_start_unique : forall m l lo hi, ordered lo hi m -> StronglySorted le_start l -> Permutation l m -> l = m.
Proof.
  induction m as [|x m IH]; intros l lo hi Ho Hs P; [apply Permutation_sym, Permutation_nil in P; exact P|].
  destruct l as [|h l]; [apply Permutation_nil in P; discriminate|]. cbn [ordered] in Ho. destruct Ho as (H1 & H2 & H3).
  inversion Hs as [|? ? Hs' Hf]; subst.
  assert (h = x) as ->.
  { assert (Hh : In h (x :: m)) by (eapply Permutation_in; [exact P|left; reflexivity]). destruct Hh as [->|Hh]; [reflexivity|].
    assert (Hx : In x (h :: l)) by (eapply Permutation_in; [apply Permutation_sym; exact P|left; reflexivity]). destruct Hx as [->|Hx]; [reflexivity|].
    rewrite Forall_forall in Hf. specialize (Hf x Hx). apply (ordered_starts _ _ _ H3) in Hh. unfold le_start, in_end in *. lia. }
  f_equal. eapply IH; [exact H3|exact Hs'|]. eapply Permutation_cons_inv. exact P.
Qed.

Lemma mapM_firstn {A B} (f : A -> result B) : forall k l ys, mapM f l = Ok ys -> mapM f (firstn k l) = Ok (firstn k ys).
Proof.
  induction k as [|k IH]; intros l ys H; [reflexivity|]. destruct l as [|x r]; [injection H as <-; reflexivity|]. cbn in H |- *.
  destruct (f x); [|discriminate]. cbn in H |- *. destruct (mapM f r) as [zs|] eqn:E; [|discriminate]. injection H as <-. rewrite (IH r zs E). reflexivity.
Qed.
Lemma mapM_skipn {A B} (f : A -> result B) : forall k l ys, mapM f l = Ok ys -> mapM f (skipn k l) = Ok (skipn k ys).
Proof.
  induction k as [|k IH]; intros l ys H; [exact H|]. destruct l as [|x r]; [injection H as <-; reflexivity|]. cbn in H |- *.
  destruct (f x); [|discriminate]. cbn in H. destruct (mapM f r) as [zs|] eqn:E; [|discriminate]. injection H as <-. apply IH. exact E.
Qed.
Lemma mapM_length {A B} (f : A -> result B) : forall l ys, mapM f l = Ok ys -> length ys = length l.
Proof. induction l as [|x r IH]; intros ys H; cbn in H; [injection H as <-; reflexivity|]. destruct (f x); [|discriminate]. cbn in H. destruct (mapM f r) as [zs|]; [|discriminate]. injection H as <-. cbn. f_equal. auto. Qed.

Section Unattached.
  Variables (nodes : list (anode ndata)) (ce : event -> result pystr) (accept : inst -> bool) (minimum : nat) (narrow : bool).
  Variables (t : trace) (cs : list pystr).
  Hypothesis Hcs : mapM ce (t_events t) = Ok cs.
  Let hashes := map string_poly_hash cs.
  Definition gap_new (a b : nat) : list inst :=
    if b - a <? minimum then [] else
    match extract_trace nd_name nodes narrow accept (piece hashes a (b - a)) with Some ys => map (shift a) ys | None => [] end.

  Lemma hashes_length : length hashes = length (t_events t).
  Proof. unfold hashes. rewrite map_length. eapply mapM_length. exact Hcs. Qed.
  Lemma piece_length_in a b : a <= b -> b <= length (t_events t) -> length (piece hashes a (b - a)) = b - a.
  Proof. intros H1 H2. unfold piece. rewrite firstn_length, skipn_length, hashes_length. lia. Qed.

  Lemma process_gap a b : a <= b -> b <= length (t_events t) -> process_undefined_events nodes ce accept minimum narrow t a b = Ok (gap_new a b).
  Proof.
    intros H1 H2. unfold process_undefined_events, do_create_hashes.
    assert (E : mapM ce (slice_of (t_events t) a b) = Ok (piece cs a (b - a))) by (unfold slice_of, piece; apply mapM_firstn, mapM_skipn, Hcs).
    rewrite E. cbn [bind].
    assert (Eh : map string_poly_hash (piece cs a (b - a)) = piece hashes a (b - a)) by (unfold piece, hashes; rewrite <- firstn_map, <- skipn_map; reflexivity).
    rewrite Eh, piece_length_in by assumption. unfold gap_new. destruct (b - a <? minimum); [reflexivity|].
    destruct (extraction_ordered_proof nd_name nodes narrow accept (piece hashes a (b - a))) as (ys & -> & _). reflexivity.
  Qed.
  Lemma ordered_shift a : forall (ys : list inst) lo hi, ordered lo hi ys -> ordered (a + lo) (a + hi) (map (shift a) ys).
  Proof. induction ys as [|y ys IH]; intros lo hi H; cbn [map ordered] in *; [lia|]. destruct H as (H1 & H2 & H3). unfold shift, in_end in *. cbn. repeat split; try lia. apply IH in H3. rewrite <- Nat.add_assoc. exact H3. Qed.
  Lemma gap_new_ordered a b : a <= b -> b <= length (t_events t) -> ordered a b (gap_new a b).
  Proof.
    intros H1 H2. unfold gap_new. destruct (b - a <? minimum); [exact H1|].
    destruct (extraction_ordered_proof nd_name nodes narrow accept (piece hashes a (b - a))) as (ys & -> & Ho).
    rewrite piece_length_in in Ho by assumption. apply (ordered_shift a) in Ho. rewrite Nat.add_0_r in Ho. replace (a + (b - a)) with b in Ho by lia. exact Ho.
  Qed.
  Lemma ordered_app : forall (l m : list inst) lo mid hi, ordered lo mid l -> ordered mid hi m -> ordered lo hi (l ++ m).
  Proof. induction l as [|x r IH]; intros m lo mid hi H1 H2; cbn [app ordered] in *; [eapply ordered_weaken; eassumption|]. destruct H1 as (A1 & A2 & A3). repeat split; auto. eapply IH; eassumption. Qed.

  Definition merged (lo : nat) (l : list inst) : list inst := flat_map (visit_fun gap_new (fun x => [x])) (process_trace_activities lo (length (t_events t)) l).
  Lemma merged_ordered : forall l lo, ordered lo (length (t_events t)) l -> ordered lo (length (t_events t)) (merged lo l).
  Proof.
    induction l as [|x r IH]; intros lo H; unfold merged; cbn [process_trace_activities].
    - cbn in H. destruct (lo <? _) eqn:E; cbn; [|exact H]. rewrite app_nil_r. apply gap_new_ordered; [exact H|lia].
    - cbn [ordered] in H. destruct H as (H1 & H2 & H3). assert (Hle := ordered_le _ _ _ H3). rewrite flat_map_app. cbn [flat_map visit_fun].
      assert (G : ordered (in_start x) (length (t_events t)) ([x] ++ merged (in_start x + in_length x) r)).
      { cbn [app ordered]. split; [lia|]. split; [exact H2|]. apply IH. exact H3. }
      destruct (lo <? in_start x) eqn:E; [apply Nat.ltb_lt in E|apply Nat.ltb_ge in E].
      + cbn [flat_map visit_fun]. rewrite app_nil_r. eapply ordered_app; [|exact G]. unfold in_end in Hle. apply gap_new_ordered; lia.
      + cbn [flat_map app]. eapply ordered_weaken; [exact H1|exact G].
  Qed.
  Lemma merged_perm : forall l lo, Permutation (flat_map (visit_fun gap_new (fun _ => [])) (process_trace_activities lo (length (t_events t)) l) ++ l) (merged lo l).
  Proof.
    unfold merged. induction l as [|x r IH]; intros lo; cbn [process_trace_activities].
    - rewrite app_nil_r. destruct (lo <? _); apply Permutation_refl.
    - rewrite !flat_map_app, <- app_assoc. apply Permutation_app.
      + destruct (lo <? in_start x); apply Permutation_refl.
      + cbn [flat_map visit_fun app]. transitivity (x :: (flat_map (visit_fun gap_new (fun _ => [])) (process_trace_activities (in_start x + in_length x) (length (t_events t)) r) ++ r)).
        * apply Permutation_sym, Permutation_middle.
        * constructor. apply IH.
  Qed.
  Lemma subseq_app_l {A} (k l m : list A) : subseq l m -> subseq l (k ++ m).
  Proof. intros H. induction k; [exact H|]. cbn. constructor. exact IHk. Qed.
  Lemma subseq_nil_l {A} (m : list A) : subseq [] m.
  Proof. induction m; constructor; auto. Qed.
  Lemma merged_subseq : forall l lo, subseq l (merged lo l).
  Proof.
    unfold merged. induction l as [|x r IH]; intros lo; [apply subseq_nil_l|]. cbn [process_trace_activities]. rewrite flat_map_app.
    apply subseq_app_l. cbn. constructor. apply IH.
  Qed.
  Lemma loop_new : forall vs acc, (forall v, In v vs -> match v with Gap a b => a <= b /\ b <= length (t_events t) | _ => True end) ->
    loopM (fun acc v => match v with
                              | Gap a b => bind (process_undefined_events nodes ce accept minimum narrow t a b) (fun new => Ok (acc ++ new))
                              | Act _ => Ok acc
                              end) vs acc = Ok (acc ++ flat_map (visit_fun gap_new (fun _ => [])) vs).
  Proof.
    induction vs as [|v vs IH]; intros acc H; [cbn; rewrite app_nil_r; reflexivity|]. rewrite loopM_cons. assert (Hv := H v (or_introl eq_refl)).
    destruct v as [a b|x]; cbn [bind].
    - rewrite process_gap by apply Hv. cbn [bind flat_map visit_fun]. rewrite IH, app_assoc by (intros; apply H; right; assumption). reflexivity.
    - rewrite IH by (intros; apply H; right; assumption). reflexivity.
  Qed.
  Lemma add_trace l : ordered 0 (length (t_events t)) l -> add_unattached_trace nodes ce accept minimum narrow l t = Ok (merged 0 l).
  Proof.
    intros Ho. unfold add_unattached_trace. rewrite loop_new.
    - cbn [bind app]. f_equal. apply (sort_start_unique _ _ 0 (length (t_events t))); [apply merged_ordered; exact Ho|apply sort_start_sorted|].
      eapply Permutation_trans; [apply sort_start_perm|]. apply merged_perm.
    - intros v Hv. assert (Hi := visits_inside _ _ _ Ho v Hv). destruct v; [lia|exact I].
  Qed.
  Lemma merged_in l x : ordered 0 (length (t_events t)) l -> (In x (merged 0 l) <-> In x l \/ exists a b, gap l (length (t_events t)) a b /\ In x (gap_new a b)).
  Proof.
    intros Ho. split.
    - intros H. apply (Permutation_in _ (Permutation_sym (merged_perm l 0))) in H. apply in_app_or in H as [H|H]; [right|left; exact H].
      apply in_flat_map in H as (v & Hv & Hx). destruct v as [a b|y]; [|destruct Hx]. exists a, b. split; [apply gaps_proof; assumption|exact Hx].
    - intros H. apply (Permutation_in _ (merged_perm l 0)). apply in_or_app. destruct H as [H|(a & b & H1 & H2)]; [right; exact H|left].
      apply in_flat_map. exists (Gap a b). split; [apply gaps_proof; assumption|exact H2].
  Qed.
End Unattached.

Lemma add_unattached_proof nodes ce accept minimum narrow l t cs :
  ordered 0 (length (t_events t)) l -> mapM ce (t_events t) = Ok cs ->
  exists r, add_unattached_trace nodes ce accept minimum narrow l t = Ok r /\ ordered 0 (length (t_events t)) r /\ subseq l r /\
    forall x, In x r <-> In x l \/
      exists a b ys y, gap l (length (t_events t)) a b /\ minimum <= b - a /\
        extract_trace nd_name nodes narrow accept (piece (map string_poly_hash cs) a (b - a)) = Some ys /\ In y ys /\ x = shift a y.
Proof.
  intros Ho Hcs. exists (merged nodes accept minimum narrow t cs 0 l). split; [apply add_trace; assumption|]. split; [apply merged_ordered with (ce := ce); assumption|].
  split; [apply merged_subseq|]. intros x. rewrite merged_in by assumption. split; (intros [H|H]; [left; exact H|right]).
  - destruct H as (a & b & Hg & Hx). unfold gap_new in Hx. destruct (b - a <? minimum) eqn:E; [destruct Hx|]. apply Nat.ltb_ge in E.
    destruct (extract_trace _ _ _ _ _) as [ys|] eqn:Ey; [|destruct Hx]. apply in_map_iff in Hx as (y & <- & Hy). exists a, b, ys, y. auto.
  - destruct H as (a & b & ys & y & Hg & Hm & Hy & Hin & ->). exists a, b. split; [exact Hg|]. unfold gap_new.
    destruct (b - a <? minimum) eqn:E; [apply Nat.ltb_lt in E; lia|]. rewrite Hy. apply in_map. exact Hin.
Qed.

Lemma nth_piece {A} (l : list A) a k i : i < k -> nth_error (piece l a k) i = nth_error l (a + i).
Proof.
  intros Hi. unfold piece. revert l. induction a as [|a IH]; intros l.
  - cbn. revert l i Hi. induction k as [|k IHk]; intros l i Hi; [lia|]. destruct l as [|x r]; [destruct i; reflexivity|]. destruct i; [reflexivity|]. cbn. apply IHk. lia.
  - destruct l as [|x r]; [cbn; rewrite firstn_nil; destruct i; reflexivity|]. cbn. apply IH.
Qed.

Lemma add_covered_proof nodes ce minimum narrow l t cs r :
  ordered 0 (length (t_events t)) l -> mapM ce (t_events t) = Ok cs ->
  add_unattached_trace nodes ce (fun _ => true) minimum narrow l t = Ok r ->
  forall j c, nth_error cs j = Some c ->
    (covered r j <-> covered l j \/ exists a b, gap l (length (t_events t)) a b /\ a <= j < b /\ minimum <= b - a /\ exists n, In n nodes /\ In (string_poly_hash c) (an_set n)).
Proof.
  intros Ho Hcs Hr j c Hj. destruct (add_unattached_proof nodes ce (fun _ => true) minimum narrow l t cs Ho Hcs) as (r' & E & Hord & _ & Hin).
  rewrite E in Hr. injection Hr as ->. assert (Hh : nth_error (map string_poly_hash cs) j = Some (string_poly_hash c)) by (apply map_nth_error; exact Hj).
  assert (Hlen : length (map string_poly_hash cs) = length (t_events t)) by (rewrite map_length; eapply mapM_length; exact Hcs).
  split.
  - intros (x & Hx & Hjx). apply Hin in Hx as [Hx|(a & b & ys & y & Hg & Hm & Hy & Hyin & ->)]; [left; exists x; auto|right].
    exists a, b. split; [exact Hg|].
    destruct (extraction_ordered_proof nd_name nodes narrow (fun _ => true) (piece (map string_poly_hash cs) a (b - a))) as (ys' & Ey & Hys). rewrite Hy in Ey. injection Ey as <-.
    destruct (ordered_within ys _ _ Hys) as [W _]. specialize (W y Hyin).
    destruct Hg as (G1 & G2 & _). assert (Lp : length (piece (map string_poly_hash cs) a (b - a)) = b - a) by (unfold piece; rewrite firstn_length, skipn_length, Hlen; lia).
    rewrite Lp in W. unfold shift, in_end in *. cbn in Hjx. split; [lia|]. split; [exact Hm|].
    assert (Hp : nth_error (piece (map string_poly_hash cs) a (b - a)) (j - a) = Some (string_poly_hash c)) by (rewrite nth_piece by lia; rewrite <- Hh; f_equal; lia).
    apply (covered_proof nd_name nodes narrow _ _ Hy (j - a) _ Hp). exists y. split; [exact Hyin|]. unfold in_end. lia.
  - intros [(x & Hx & Hjx)|(a & b & Hg & Hab & Hm & n & Hn & Hnc)].
    + exists x. split; [apply Hin; left; exact Hx|exact Hjx].
    + destruct (extraction_ordered_proof nd_name nodes narrow (fun _ => true) (piece (map string_poly_hash cs) a (b - a))) as (ys & Ey & _).
      assert (Hp : nth_error (piece (map string_poly_hash cs) a (b - a)) (j - a) = Some (string_poly_hash c)) by (rewrite nth_piece by lia; rewrite <- Hh; f_equal; lia).
      destruct (proj2 (covered_proof nd_name nodes narrow _ _ Ey (j - a) _ Hp)) as (y & Hy & Hjy); [exists n; auto|].
      exists (shift a y). split; [apply Hin; right; exists a, b, ys, y; auto|]. unfold shift, in_end in *. cbn. lia.
Qed.

(** * Grouping *)
Lemma fold_dpush {K A V} (eqd : forall a b : K, {a = b} + {a <> b}) (key : A -> K) (val : A -> V) : forall l d k,
  dget eqd (fold_left (fun d a => dpush eqd d (key a) (val a)) l d) k =
  match dget eqd d k, flat_map (fun a => if eqd (key a) k then [val a] else []) l with
  | Some v, f => Some (v ++ f)
  | None, [] => None
  | None, f => Some f
  end.
Proof.
  induction l as [|a l IH]; intros d k; cbn [fold_left flat_map].
  - destruct (dget eqd d k) as [v|]; [rewrite app_nil_r|]; reflexivity.
  - rewrite IH, dget_dpush. destruct (eqd k (key a)) as [->|Hk].
    + destruct (eqd (key a) (key a)) as [_|]; [|congruence]. destruct (dget eqd d (key a)) as [v|]; cbn; [rewrite <- app_assoc|]; reflexivity.
    + destruct (eqd (key a) k) as [|_]; [congruence|]. reflexivity.
Qed.
Lemma fold_dpush_NoDup {K A V} (eqd : forall a b : K, {a = b} + {a <> b}) (key : A -> K) (val : A -> V) : forall l d,
  NoDup (dkeys d) -> NoDup (dkeys (fold_left (fun d a => dpush eqd d (key a) (val a)) l d)).
Proof. induction l as [|a l IH]; intros d H; [exact H|]. cbn. apply IH. apply dpush_NoDup. exact H. Qed.

Lemma flat_filter {A} (f : A -> bool) l : flat_map (fun a => if f a then [a] else []) l = filter f l.
Proof. induction l as [|x r IH]; [reflexivity|]. cbn. rewrite IH. destruct (f x); reflexivity. Qed.

Definition of_level (k : Z) (l : list (anode ndata)) : list (anode ndata) := filter (fun a => (nd_level (an_data a) =? k)%Z) l.
Lemma levels_dict l k : dget Z.eq_dec (split_activities_by_levels_dict l) k = match of_level k l with [] => None | f => Some f end.
Proof.
  unfold split_activities_by_levels_dict. rewrite (fold_dpush Z.eq_dec (fun a : anode ndata => nd_level (an_data a)) (fun a => a)). cbn.
  unfold of_level. rewrite <- flat_filter. erewrite flat_map_ext_in; [reflexivity|]. intros a _. destruct (Z.eq_dec _ k) as [->|H]; [rewrite Z.eqb_refl; reflexivity|].
  apply Z.eqb_neq in H. rewrite H. reflexivity.
Qed.
Lemma insert_level_perm {V} (x : Z * V) l : Permutation (insert_level x l) (x :: l).
Proof. induction l as [|y r IH]; cbn; [constructor; constructor|]. destruct (fst x <=? fst y)%Z; [apply Permutation_refl|]. transitivity (y :: x :: r); [constructor; exact IH|constructor]. Qed.
Lemma sort_level_perm {V} (l : list (Z * V)) : Permutation (fold_right insert_level [] l) l.
Proof. induction l as [|x r IH]; cbn; [constructor|]. eapply Permutation_trans; [apply insert_level_perm|]. constructor. exact IH. Qed.
Lemma insert_level_sorted {V} (x : Z * V) l : StronglySorted Z.lt (map fst l) -> ~ In (fst x) (map fst l) -> StronglySorted Z.lt (map fst (insert_level x l)).
Proof.
  induction l as [|y r IH]; intros H Hx; cbn; [constructor; constructor|]. cbn in H. inversion H as [|? ? Hs Hf]; subst.
  destruct (fst x <=? fst y)%Z eqn:E; [apply Z.leb_le in E|apply Z.leb_gt in E]; cbn.
  - assert (fst x < fst y)%Z by (cbn in Hx; assert (fst y <> fst x) by tauto; lia). constructor; [exact H|]. constructor; [assumption|]. eapply Forall_impl; [|exact Hf]. intros z Hz. cbn in *. lia.
  - constructor; [apply IH; [exact Hs|]; intros Hc; apply Hx; right; exact Hc|]. apply (Permutation_Forall (Permutation_map fst (Permutation_sym (insert_level_perm x r)))). cbn. constructor; [exact E|exact Hf].
Qed.
Lemma by_level_proof l : exists ks, split_activities_by_level l = map (fun k => (k, of_level k l)) ks /\ StronglySorted Z.lt ks /\
  (forall k, In k ks <-> exists a, In a l /\ nd_level (an_data a) = k).
Proof.
  unfold split_activities_by_level. set (d := split_activities_by_levels_dict l).
  assert (Hnd : NoDup (dkeys d)) by (apply (fold_dpush_NoDup Z.eq_dec (fun a : anode ndata => nd_level (an_data a)) (fun a => a)); constructor).
  assert (Hd : forall p, In p d -> snd p = of_level (fst p) l).
  { intros [k v] Hp. cbn. apply (In_dget Z.eq_dec) in Hp; [|exact Hnd]. unfold d in Hp. rewrite levels_dict in Hp. destruct (of_level k l); congruence. }
  exists (map fst (fold_right insert_level [] d)). split; [|split].
  - rewrite map_map. rewrite <- (map_id (fold_right insert_level [] d)) at 1. apply map_ext_in. intros p Hp.
    apply (Permutation_in _ (sort_level_perm d)) in Hp. rewrite <- (Hd p Hp). destruct p. reflexivity.
  - clear Hd. unfold dkeys in Hnd. induction d as [|x r IH]; cbn; [constructor|]. cbn in Hnd. inversion Hnd as [|? ? Hx Hr]; subst. apply insert_level_sorted; [apply IH; exact Hr|].
    intros Hc. apply Hx. apply in_map_iff in Hc as (p & E & Hp). apply (Permutation_in _ (sort_level_perm r)) in Hp. rewrite <- E. apply in_map. exact Hp.
  - intros k. assert (Hk : In k (map fst (fold_right insert_level [] d)) <-> In k (dkeys d)).
    { unfold dkeys. split; apply Permutation_in, Permutation_map; [|apply Permutation_sym]; apply sort_level_perm. }
    rewrite Hk, (dget_Some_key Z.eq_dec). unfold d. rewrite levels_dict. unfold of_level. split.
    + intros (v & Hv). destruct (filter _ l) as [|a f] eqn:E; [discriminate|]. assert (Ha : In a (a :: f)) by (left; reflexivity). rewrite <- E in Ha.
      apply filter_In in Ha as [Ha Hl]. apply Z.eqb_eq in Hl. exists a. auto.
    + intros (a & Ha & Hl). destruct (filter _ l) as [|b f] eqn:E; [|eexists; reflexivity].
      assert (Hc : In a (filter (fun a => (nd_level (an_data a) =? k)%Z) l)) by (apply filter_In; split; [exact Ha|apply Z.eqb_eq; exact Hl]). rewrite E in Hc. destruct Hc.
Qed.
Lemma for_level_proof l k : get_activities_for_level l k = if existsb (fun a => (nd_level (an_data a) =? k)%Z) l then Ok (of_level k l) else Err KeyError.
Proof.
  unfold get_activities_for_level, dgetitem. rewrite levels_dict. unfold of_level.
  destruct (existsb _ l) eqn:E.
  - apply existsb_exists in E as (a & Ha & Hl). destruct (filter _ l) eqn:F; [|reflexivity].
    assert (Hc : In a (filter (fun a => (nd_level (an_data a) =? k)%Z) l)) by (apply filter_In; auto). rewrite F in Hc. destruct Hc.
  - destruct (filter _ l) as [|a f] eqn:F; [reflexivity|]. assert (Ha : In a (a :: f)) by (left; reflexivity). rewrite <- F in Ha. apply filter_In in Ha.
    assert (existsb (fun a => (nd_level (an_data a) =? k)%Z) l = true) by (apply existsb_exists; exists a; exact Ha). congruence.
Qed.
Lemma by_size_proof D (name : D -> pystr) (l : list (anode D)) : exists ks gs, split_by_size name l = gs /\ StronglySorted lt ks /\
  (forall k, In k ks <-> exists a, In a l /\ length (an_set a) = k) /\
  Forall2 (fun k g => Permutation g (filter (fun a => length (an_set a) =? k) l) /\
                      StronglySorted (fun a b => str_leb (name (an_data a)) (name (an_data b)) = true) g) ks gs.
Proof.
  destruct (split_by_size_spec name l) as (ks & E & Hs & Hk). exists ks, (split_by_size name l). split; [reflexivity|]. split; [exact Hs|].
  split; [exact Hk|]. rewrite E. clear. induction ks as [|k ks IH]; cbn; constructor; [|exact IH]. split; [apply sort_name_perm|apply sort_name_sorted].
Qed.

(** * Logs per activity *)
Lemma acts_of_visits n {S} (h : S -> inst -> result S) : forall l lo s,
  loopM (fun d v => match v with Gap _ _ => Ok d | Act x => h d x end) (process_trace_activities lo n l) s = loopM h l s.
Proof.
  induction l as [|x r IH]; intros lo s; cbn [process_trace_activities].
  - destruct (lo <? n); reflexivity.
  - rewrite loopM_app. replace (loopM _ (if lo <? in_start x then [Gap lo (in_start x)] else []) s) with (@Ok S s) by (destruct (lo <? in_start x); reflexivity).
    cbn [bind]. rewrite !loopM_cons. destruct (h s x); [|reflexivity]. cbn [bind]. apply IH.
Qed.
Lemma logs_fold (creator : trace -> inst -> result (option trace)) f (l : eventlog) acts :
  (forall p x, In p (combine acts (l_traces l)) -> In x (fst p) -> creator (snd p) x = Ok (f (snd p) x)) ->
  logs_for_activities creator l acts =
  Ok (fold_left (fun d a => dpush str_eq_dec d (fst a) (snd a))
        (flat_map (fun p => flat_map (fun x => match f (snd p) x with Some t => [(inst_name x, t)] | None => [] end) (fst p)) (combine acts (l_traces l))) []).
Proof.
  unfold logs_for_activities, zip. generalize (@nil (pystr * list trace)) as d. induction (combine acts (l_traces l)) as [|p ps IH]; intros d H; [reflexivity|].
  rewrite loopM_cons. cbn [flat_map]. rewrite fold_left_app.
  assert (E : forall xs d, (forall x, In x xs -> creator (snd p) x = Ok (f (snd p) x)) ->
    loopM (fun d x => bind (creator (snd p) x) (fun o => match o with None => Ok d | Some t => Ok (dpush str_eq_dec d (inst_name x) t) end)) xs d =
    Ok (fold_left (fun d a => dpush str_eq_dec d (fst a) (snd a)) (flat_map (fun x => match f (snd p) x with Some t => [(inst_name x, t)] | None => [] end) xs) d)).
  { clear. induction xs as [|x xs IH]; intros d H; [reflexivity|]. rewrite loopM_cons, (H x (or_introl eq_refl)). cbn [bind flat_map].
    rewrite fold_left_app. destruct (f (snd p) x); cbn; apply IH; intros; apply H; right; assumption. }
  rewrite (acts_of_visits (length (t_events (snd p))) (fun d x => bind (creator (snd p) x) (fun o => match o with None => Ok d | Some t => Ok (dpush str_eq_dec d (inst_name x) t) end))).
  rewrite E by (intros x Hx; apply H; [left; reflexivity|exact Hx]). cbn [bind]. apply IH. intros q x Hq Hx. apply H; [right; exact Hq|exact Hx].
Qed.
Lemma named_eq f nm ps : flat_map (fun a : pystr * trace => if str_eq_dec (fst a) nm then [snd a] else [])
  (flat_map (fun p => flat_map (fun x => match f (snd p) x with Some t => [(inst_name x, t)] | None => [] end) (fst p)) ps) = named_traces f nm ps.
Proof.
  unfold named_traces. induction ps as [|p ps IH]; [reflexivity|]. cbn [flat_map]. rewrite flat_map_app, IH. f_equal. generalize (fst p). clear. induction l as [|x xs IH]; [reflexivity|].
  cbn [flat_map]. rewrite flat_map_app, IH. f_equal. unfold str_eqb, inst_name. destruct (f (snd p) x) as [t|]; cbn [flat_map fst snd app]; destruct (str_eq_dec _ nm); reflexivity.
Qed.
Lemma logs_proof (creator : trace -> inst -> result (option trace)) f (l : eventlog) acts :
  (forall p x, In p (combine acts (l_traces l)) -> In x (fst p) -> creator (snd p) x = Ok (f (snd p) x)) ->
  exists d, logs_for_activities creator l acts = Ok d /\ NoDup (dkeys d) /\
    forall nm, dget str_eq_dec d nm = match named_traces f nm (combine acts (l_traces l)) with [] => None | ts => Some ts end.
Proof.
  intros H. eexists. split; [apply (logs_fold creator f l acts H)|]. split.
  - apply (fold_dpush_NoDup str_eq_dec (@fst pystr trace) (@snd pystr trace)). constructor.
  - intros nm. rewrite (fold_dpush str_eq_dec (@fst pystr trace) (@snd pystr trace)). cbn [dget]. rewrite named_eq. reflexivity.
Qed.

Lemma trace_for_ok ce g t x : (forall e, In e (t_events t) -> ce e = Ok (g e)) ->
  trace_for_activity ce t x = Ok (trace_of_events (renamed g (piece (t_events t) (in_start x) (in_length x)))).
Proof.
  intros H. unfold trace_for_activity. rewrite slice_of_piece. rewrite (mapM_flat _ (fun e => eset e concept_name (VStr (g e))) (fun _ => @nil nat)); [reflexivity|].
  intros e He. rewrite (H e (piece_sub _ _ _ _ He)). reflexivity.
Qed.
Lemma logs_for_level_proof ce g level (l : eventlog) acts :
  (forall t e, In t (l_traces l) -> In e (t_events t) -> ce e = Ok (g e)) ->
  exists d, create_logs_for_activities ce level l acts = Ok d /\ NoDup (dkeys d) /\
    forall nm, dget str_eq_dec d nm =
      match named_traces (fun t x => if (nd_level (an_data (in_node x)) =? level)%Z then Some (trace_of_events (renamed g (piece (t_events t) (in_start x) (in_length x)))) else None) nm (combine acts (l_traces l)) with
      | [] => None | ts => Some ts end.
Proof.
  intros H. unfold create_logs_for_activities. apply logs_proof. intros [a t] x Hp Hx. cbn [snd fst] in *. unfold inst_level.
  destruct (_ =? level)%Z; [|reflexivity]. rewrite (trace_for_ok ce g); [reflexivity|]. intros e He. apply (H t); [|exact He]. eapply in_combine_r. exact Hp.
Qed.

(** ** Promotion of lower levels *)
Lemma existsb_in x b : existsb (str_eqb x) b = (if in_dec str_eq_dec x b then true else false).
Proof.
  destruct (in_dec str_eq_dec x b) as [H|H].
  - apply existsb_exists. exists x. split; [exact H|apply str_eqb_refl].
  - destruct (existsb (str_eqb x) b) eqn:E; [|reflexivity]. apply existsb_exists in E as (y & Hy & E). apply str_eqb_eq in E. subst. contradiction.
Qed.
Lemma same_names_within a b : same_names a b = within b a && within a b.
Proof.
  unfold same_names, within. rewrite andb_comm. f_equal.
  - induction b as [|y r IH]; [reflexivity|]. cbn [forallb]. rewrite existsb_in, IH. reflexivity.
  - induction a as [|y r IH]; [reflexivity|]. cbn [forallb]. rewrite existsb_in, IH. reflexivity.
Qed.
Lemma rename_all_ok g es : rename_all (fun e => Ok (g e)) es = Ok (renamed g es).
Proof. unfold rename_all, renamed. apply (mapM_flat _ (fun e => eset e concept_name (VStr (g e))) (fun _ => @nil nat)). reflexivity. Qed.
Lemma rename_loop : forall gs es, loopM (fun es ex => rename_all ex es) (map (fun g e => Ok (g e)) gs) es = Ok (fold_left (fun es g => renamed g es) gs es).
Proof. induction gs as [|g gs IH]; intros es; [reflexivity|]. cbn [map fold_left]. rewrite loopM_cons, rename_all_ok. cbn [bind]. apply IH. Qed.
Lemma names_renamed g es : mapM name_of_event (renamed g es) = Ok (event_names (renamed g es)).
Proof.
  unfold event_names, renamed. induction es as [|e r IH]; [reflexivity|]. cbn [map mapM flat_map].
  assert (E : eget (eset e concept_name (VStr (g e))) concept_name = Some (VStr (g e))) by apply (dget_dset_same str_eq_dec).
  unfold name_of_event at 1, egetitem, dgetitem. fold (eget (eset e concept_name (VStr (g e))) concept_name). rewrite E. cbn [bind]. rewrite IH. reflexivity.
Qed.
Lemma py_index_map d (gs : list (event -> pystr)) : d < length gs ->
  py_index (map (fun g e => @Ok pystr (g e)) gs) (Z.of_nat d) = Ok (fun e => Ok (nth d gs (fun _ => []) e)).
Proof.
  intros H. unfold py_index. assert (Hz : (Z.of_nat d <? 0)%Z = false) by (apply Z.ltb_ge; lia). rewrite !Hz.
  rewrite Nat2Z.id. destruct (nth_error gs d) as [g|] eqn:E; [|apply nth_error_None in E; lia].
  erewrite map_nth_error by exact E. erewrite nth_error_nth by exact E. reflexivity.
Qed.
Lemma promoted_renamed gs k es d : length gs = S d -> k <= d -> exists es', promoted_events gs k es = renamed (nth d gs (fun _ => [])) es'.
Proof.
  intros Hl Hk. unfold promoted_events. destruct (exists_last (l := skipn k gs)) as (pre & g & E).
  { intros E. apply (f_equal (@length _)) in E. rewrite skipn_length in E. cbn in E. lia. }
  rewrite E, fold_left_app. cbn. eexists. f_equal.
  rewrite <- (firstn_skipn k gs), E. rewrite app_nth2; rewrite firstn_length; [|lia]. replace (d - Nat.min k (length gs)) with (d - k) by lia.
  assert (Hp : length (skipn k gs) = S d - k) by (rewrite skipn_length; lia). rewrite E, app_length in Hp. cbn [length] in Hp.
  rewrite app_nth2 by lia. replace (d - k - length pre) with 0 by lia. reflexivity.
Qed.
Lemma promote_trace_proof (l : eventlog) d gs t x : length gs = S d -> (0 <= nd_level (an_data (in_node x)))%Z ->
  rs_trace_index (nd_repeat_set (an_data (in_node x))) < length (l_traces l) ->
  promote_trace l (Z.of_nat d) (map (fun g e => Ok (g e)) gs) true t x = Ok (promoted l d gs t x).
Proof.
  intros Hl Hlev Hrt. unfold promote_trace, promoted, inst_level. set (lev := nd_level (an_data (in_node x))) in *. set (rs := nd_repeat_set _) in *.
  destruct (Z.ltb_spec (Z.of_nat d) lev) as [H|H].
  { replace (d <? Z.to_nat lev) with true by (symmetry; apply Nat.ltb_lt; lia). reflexivity. }
  replace (d <? Z.to_nat lev) with false by (symmetry; apply Nat.ltb_ge; lia).
  destruct (Z.eqb_spec lev (Z.of_nat d)) as [E|E].
  - rewrite E, Nat2Z.id, Nat.eqb_refl. cbn [orb]. rewrite py_index_map by lia. cbn [bind].
    rewrite (trace_for_ok _ (nth d gs (fun _ => []))) by reflexivity. cbn [bind]. do 3 f_equal.
    unfold promoted_events. assert (Hs : skipn d gs = [nth d gs (fun _ => [])]).
    { clear -Hl. revert gs Hl. induction d as [|d IH]; intros gs Hl; (destruct gs as [|g gs]; [discriminate|]).
      - destruct gs; [reflexivity|discriminate].
      - cbn. apply IH. cbn in Hl. lia. }
    rewrite Hs. reflexivity.
  - replace (Z.to_nat lev =? d) with false by (symmetry; apply Nat.eqb_neq; lia). cbn [orb].
    unfold find_events_for_repeat_set. destruct (nth_error (l_traces l) (rs_trace_index rs)) as [rt|] eqn:Ert; [|apply nth_error_None in Ert; lia].
    cbn [bind]. rewrite !slice_of_piece.
    assert (Hsl : py_slice (map (fun g (e : event) => @Ok pystr (g e)) gs) lev (Z.of_nat d + 1) = map (fun g e => Ok (g e)) (skipn (Z.to_nat lev) gs)).
    { unfold py_slice, py_bound. replace (lev <? 0)%Z with false by (symmetry; apply Z.ltb_ge; lia). replace (Z.of_nat d + 1 <? 0)%Z with false by (symmetry; apply Z.ltb_ge; lia).
      unfold slice_of. rewrite skipn_map. apply firstn_all2. rewrite map_length, skipn_length. lia. }
    rewrite Hsl, rename_loop. cbn [bind]. rewrite py_index_map by lia. cbn [bind].
    rewrite (mapM_flat _ (nth d gs (fun _ => [])) (fun _ => @nil nat)) by reflexivity. cbn [bind].
    change (fold_left (fun es g => renamed g es) (skipn (Z.to_nat lev) gs) (piece (t_events t) (in_start x) (in_length x))) with (promoted_events gs (Z.to_nat lev) (piece (t_events t) (in_start x) (in_length x))).
    destruct (promoted_renamed gs (Z.to_nat lev) (piece (t_events t) (in_start x) (in_length x)) d Hl ltac:(lia)) as (es' & ->).
    rewrite names_renamed. cbn [bind]. rewrite same_names_within. reflexivity.
Qed.
Lemma promoted_logs_proof (l : eventlog) d gs acts : length gs = S d ->
  (forall a x, In a acts -> In x a -> (0 <= nd_level (an_data (in_node x)))%Z /\ rs_trace_index (nd_repeat_set (an_data (in_node x))) < length (l_traces l)) ->
  exists r, create_logs_for_activities_with_promote l acts (Z.of_nat d) (map (fun g e => Ok (g e)) gs) true = Ok r /\ NoDup (dkeys r) /\
    forall nm, dget str_eq_dec r nm = match named_traces (promoted l d gs) nm (combine acts (l_traces l)) with [] => None | ts => Some ts end.
Proof.
  intros Hl H. unfold create_logs_for_activities_with_promote. rewrite map_length, Hl.
  replace (Z.of_nat (S d) =? Z.of_nat d + 1)%Z with true by (symmetry; apply Z.eqb_eq; lia).
  apply logs_proof. intros [a t] x Hp Hx. cbn [fst snd] in *. destruct (H a x (in_combine_l _ _ _ _ Hp) Hx) as [H1 H2]. apply promote_trace_proof; assumption.
Qed.
Lemma within_iff a b : within a b = true <-> forall x, In x a -> In x b.
Proof.
  unfold within. rewrite forallb_forall. split; intros H x Hx; specialize (H x Hx); destruct (in_dec str_eq_dec x b); congruence || auto.
Qed.

(** * Whole logs *)
Lemma expand_back_log_proof uh (l l' : eventlog) acts :
  Forall2 (fun a t => ordered 0 (length (t_events t)) a) acts (l_traces l) ->
  create_new_log_from_activities l acts uh InsertAllEvents = Ok l' ->
  Forall2 (fun t t' => substitute_original_events (t_events t') = substitute_original_events (t_events t)) (l_traces l) (l_traces l') /\
  calculate_underlying_events_count l' = calculate_underlying_events_count l.
Proof.
  intros Ho H. unfold create_new_log_from_activities in H. destruct (mapM _ _) as [ts|] eqn:E; [|discriminate]. injection H as <-. cbn [l_traces log_of_traces].
  assert (F : Forall2 (fun t t' => substitute_original_events (t_events t') = substitute_original_events (t_events t)) (l_traces l) ts).
  { unfold zip in E. revert ts E. induction Ho as [|a t acts' ts' Hh Ht IH]; intros ts E; cbn [combine mapM] in E; [injection E as <-; constructor|].
    cbn [fst snd] in E. destruct (new_trace_from_activities uh InsertAllEvents a t) as [t'|] eqn:Et; [|discriminate]. cbn [bind] in E.
    destruct (mapM _ (combine acts' ts')) as [ts''|]; [|discriminate]. injection E as <-. constructor; [|apply IH; reflexivity].
    eapply expand_back_proof; eassumption. }
  split; [exact F|]. rewrite !count_log_proof. cbn [l_traces log_of_traces].
  enough (G : substitute_original_events (flat_map t_events ts) = substitute_original_events (flat_map t_events (l_traces l))) by (rewrite G; reflexivity).
  clear -F. induction F as [|t t' r r' Hh Ht IH]; [reflexivity|]. cbn [flat_map]. rewrite !substitute_app, Hh, IH. reflexivity.
Qed.
Lemma sum_lengths : forall (l : list inst) lo hi, ordered lo hi l -> length l <= list_sum (map (@in_length ndata) l).
Proof. induction l as [|x r IH]; intros lo hi H; [reflexivity|]. cbn [ordered] in H. destruct H as (_ & H2 & H3). apply IH in H3. cbn. change (fold_right Nat.add 0 (map (@in_length ndata) r)) with (list_sum (map (@in_length ndata) r)). lia. Qed.
Lemma shorter_proof uh l t t' : ordered 0 (length (t_events t)) l -> new_trace_from_activities uh InsertAllEvents l t = Ok t' -> length (t_events t') <= length (t_events t).
Proof. intros Ho H. assert (E := length_proof uh l t t' Ho H). assert (S := sum_lengths _ _ _ Ho). lia. Qed.

Lemma other_strategy_proof uh l t : ordered 0 (length (t_events t)) l -> (forall e, In e (t_events t) -> acts_ok e) ->
  new_trace_from_activities uh OtherStrategy l t =
  if forallb (covered_b l) (seq 0 (length (t_events t))) then Ok (trace_of_events (map (event_of uh (t_events t)) l)) else Err ValueError.
Proof.
  intros Ho Ha. unfold new_trace_from_activities. set (es := t_events t) in *.
  assert (Hacts : forall l lo, ordered lo (length es) l -> (forall a b, ~ In (Gap a b) (process_trace_activities lo (length es) l)) ->
            process_trace_activities lo (length es) l = map Act l).
  { clear. induction l as [|x r IH]; intros lo H Hn; cbn [process_trace_activities] in *.
    - destruct (lo <? length es); [exfalso; eapply Hn; left; reflexivity|reflexivity].
    - cbn [ordered] in H. destruct H as (H1 & H2 & H3). destruct (lo <? in_start x); [exfalso; eapply Hn; left; reflexivity|]. cbn [app map]. f_equal. apply IH; [exact H3|].
      intros a b Hc. apply (Hn a b). right. exact Hc. }
  assert (Herr : forall vs, (exists a b, In (Gap a b) vs) -> mapM (visit_events uh OtherStrategy es) vs = Err ValueError).
  { clear -Ha. induction vs as [|v vs IH]; intros (a & b & H); [destruct H|]. cbn [mapM]. destruct v as [a' b'|x]; [reflexivity|].
    cbn [visit_events]. rewrite activity_event_ok by exact Ha. cbn [bind]. destruct H as [H|H]; [discriminate|]. rewrite IH by (exists a, b; exact H). reflexivity. }
  destruct (forallb (covered_b l) (seq 0 (length es))) eqn:E.
  - rewrite Hacts; [|exact Ho|].
    + rewrite (mapM_flat _ (visit_fun (fun _ _ => []) (fun x => [event_of uh es x])) (fun _ => @nil nat)).
      * cbn [bind]. f_equal. f_equal. rewrite <- flat_map_concat_map. clear. induction l; cbn; congruence.
      * intros v Hv. apply in_map_iff in Hv as (x & <- & _). cbn [visit_events]. rewrite activity_event_ok by exact Ha. reflexivity.
    + intros a b Hg. apply gaps_proof in Hg; [|exact Ho]. destruct Hg as (G1 & G2 & G3 & _). rewrite forallb_forall in E.
      apply (G3 a); [lia|]. apply covered_b_iff. apply E. apply in_seq. lia.
  - rewrite Herr; [reflexivity|]. assert (Hu : exists j, j < length es /\ covered_b l j = false).
    { clear -E. destruct (existsb (fun j => negb (covered_b l j)) (seq 0 (length es))) eqn:F.
      - apply existsb_exists in F as (j & Hj & Hn). apply in_seq in Hj. exists j. split; [lia|]. apply negb_true_iff. exact Hn.
      - assert (forallb (covered_b l) (seq 0 (length es)) = true); [|congruence]. apply forallb_forall. intros j Hj. destruct (covered_b l j) eqn:C; [reflexivity|].
        assert (existsb (fun j => negb (covered_b l j)) (seq 0 (length es)) = true) by (apply existsb_exists; exists j; rewrite C; auto). congruence. }
    destruct Hu as (j & Hj & Hc).
    assert (P := visits_positions (fun _ _ => [tt]) (fun _ => []) (fun f _ => if f then [tt] else []) (length es)).
    specialize (P ltac:(intros a b Hab; rewrite (flat_map_ext_in _ (fun j => if j =? a then [tt] else [])) by (intros; reflexivity); symmetry; apply seq_first_flat; lia) l 0 Ho).
    destruct (flat_map (visit_fun (fun _ _ => [tt]) (fun _ => [])) (process_trace_activities 0 (length es) l)) as [|u us] eqn:V.
    + exfalso. (* the first uncovered position up to j starts a run *)
      assert (Q : forall i, i <= j -> covered_b l i = true).
      { rewrite Nat.sub_0_r in P. symmetry in P. intros i. induction i as [|i IHi]; intros Hi.
        - destruct (covered_b l 0) eqn:C0; [reflexivity|]. exfalso. assert (Hin : In tt (flat_map (local_at (fun _ => []) (fun f _ => if f then [tt] else []) 0 l) (seq 0 (length es)))).
          { apply in_flat_map. exists 0. split; [apply in_seq; lia|]. unfold local_at. destruct (starting l 0) as [x|] eqn:S0; [|rewrite C0; left; reflexivity].
            exfalso. apply starting_in in S0 as [S1 S2]. apply covered_b_false in C0. apply C0. exists x. split; [exact S1|]. destruct (ordered_within l 0 _ Ho) as [W _]. specialize (W x S1). unfold in_end in *. lia. }
          rewrite P in Hin. destruct Hin.
        - specialize (IHi ltac:(lia)). destruct (covered_b l (S i)) eqn:C0; [reflexivity|]. exfalso. assert (Hin : In tt (flat_map (local_at (fun _ => []) (fun f _ => if f then [tt] else []) 0 l) (seq 0 (length es)))).
          { apply in_flat_map. exists (S i). split; [apply in_seq; lia|]. unfold local_at. destruct (starting l (S i)) as [x|] eqn:S0.
            - exfalso. apply starting_in in S0 as [S1 S2]. apply covered_b_false in C0. apply C0. exists x. split; [exact S1|]. destruct (ordered_within l 0 _ Ho) as [W _]. specialize (W x S1). unfold in_end in *. lia.
            - rewrite C0. replace (S i - 1) with i by lia. rewrite IHi, orb_true_r. left. reflexivity. }
          rewrite P in Hin. destruct Hin. }
      rewrite Q in Hc by lia. discriminate.
    + assert (Hin : In u (flat_map (visit_fun (fun _ _ => [tt]) (fun _ => [])) (process_trace_activities 0 (length es) l))) by (rewrite V; left; reflexivity).
      apply in_flat_map in Hin as (v & Hv & Hu). destruct v as [a b|x]; [|destruct Hu]. exists a, b. exact Hv.
Qed.
