(** Proofs for C55. *)
From Coq Require Import Permutation Sorted.
From Verif Require Import Py PyFacts XesModel LogModel HashModel PatternModel PatternSpec TextModel TextSpec TextProofs TreeModel TreeSpec TreeProofs ActModel ActSpec
  ActLogModel ActLogSpec ActLogProofs InfoModel HighModel HighSpec HighProofs HighLevelProofs HMutProofs PictureProofs GraphModel GraphSpec GraphProofs ReportModel ReportSpec.

(** Marking. *)
Lemma dset_dset {K V} (dec : forall x y : K, {x = y} + {x <> y}) d k (v w : V) : dset dec (dset dec d k v) k w = dset dec d k w.
Proof.
  induction d as [|[k' v'] d IH]; cbn.
  - destruct (dec k k); [reflexivity|congruence].
  - destruct (dec k k'); cbn; [destruct (dec k k'); [reflexivity|congruence]|]. destruct (dec k k'); [congruence|]. rewrite IH. reflexivity.
Qed.

Lemma mark_event_ok name : forall es i, i < length es -> exists es', mark_event name es i = Ok es' /\ length es' = length es /\
  forall j e, nth_error es j = Some e -> nth_error es' j = Some (if j =? i then eset e activity_key (VStr name) else e).
Proof.
  induction es as [|e es IH]; intros i Hi; [cbn in Hi; lia|]. destruct i as [|i]; cbn [mark_event].
  - eexists. split; [reflexivity|]. split; [reflexivity|]. intros [|j] x E; cbn in *; [injection E as <-; reflexivity|exact E].
  - destruct (IH i) as [es' [E1 [E2 E3]]]; [cbn in Hi; lia|]. rewrite E1. eexists. split; [reflexivity|]. split; [cbn; congruence|].
    intros [|j] x E; cbn in *; [exact E|]. apply E3. exact E.
Qed.
Lemma mark_event_err name : forall es i, length es <= i -> mark_event name es i = Err IndexError.
Proof.
  induction es as [|e es IH]; intros [|i] Hi; cbn in *; try reflexivity; [lia|]. rewrite IH by lia. reflexivity.
Qed.
Lemma mark_range name n : forall a es, a + n <= length es ->
  exists es', loopM (fun es i => mark_event name es i) (seq a n) es = Ok es' /\ length es' = length es /\
  forall j e, nth_error es j = Some e -> nth_error es' j = Some (if (a <=? j) && (j <? a + n) then eset e activity_key (VStr name) else e).
Proof.
  induction n as [|n IH]; intros a es H; cbn [seq loopM].
  - exists es. split; [reflexivity|]. split; [reflexivity|]. intros j e E. rewrite E. destruct (a <=? j) eqn:L; [|reflexivity]. apply Nat.leb_le in L.
    destruct (j <? a + 0) eqn:M; [apply Nat.ltb_lt in M; lia|reflexivity].
  - destruct (mark_event_ok name es a ltac:(lia)) as [e1 [E1 [L1 N1]]]. rewrite E1. cbn [bind].
    destruct (IH (S a) e1 ltac:(lia)) as [e2 [E2 [L2 N2]]]. exists e2. split; [exact E2|]. split; [congruence|].
    intros j e E. rewrite (N2 _ _ (N1 _ _ E)). f_equal. destruct (Nat.eqb_spec j a) as [->|Hne].
    + replace (S a <=? a) with false by (symmetry; apply Nat.leb_gt; lia). replace (a <=? a) with true by (symmetry; apply Nat.leb_le; lia).
      replace (a <? a + S n) with true by (symmetry; apply Nat.ltb_lt; lia). reflexivity.
    + replace (j <? a + S n) with (j <? S a + n) by (f_equal; lia). destruct (a <=? j) eqn:L.
      * apply Nat.leb_le in L. replace (S a <=? j) with true by (symmetry; apply Nat.leb_le; lia). reflexivity.
      * apply Nat.leb_gt in L. replace (S a <=? j) with false by (symmetry; apply Nat.leb_gt; lia). reflexivity.
Qed.
Lemma mark_range_err name n : forall a es, length es < a + n -> 0 < n -> loopM (fun es i => mark_event name es i) (seq a n) es = Err IndexError.
Proof.
  induction n as [|n IH]; intros a es H Hn; [lia|]. cbn [seq loopM]. destruct (Nat.lt_ge_cases a (length es)) as [Ha|Ha].
  - destruct (mark_event_ok name es a Ha) as [e1 [E1 [L1 _]]]. rewrite E1. cbn [bind]. apply IH; [lia|]. lia.
  - rewrite mark_event_err by exact Ha. reflexivity.
Qed.
Lemma find_app {A} (f : A -> bool) a b : find f (a ++ b) = match find f a with Some x => Some x | None => find f b end.
Proof. induction a as [|x a IH]; [reflexivity|]. cbn. destruct (f x); [reflexivity|exact IH]. Qed.
Lemma mark_step x es : fits (length es) x ->
  exists es', loopM (fun es i => mark_event (nd_unique (an_data (in_node x))) es i) (range (in_start x) (in_start x + in_length x)) es = Ok es' /\ length es' = length es /\
  forall j e, nth_error es j = Some e -> nth_error es' j = Some (if covers j x then eset e activity_key (VStr (nd_unique (an_data (in_node x)))) else e).
Proof.
  intros H. unfold range. replace (in_start x + in_length x - in_start x) with (in_length x) by lia. destruct H as [H|H].
  - rewrite H. cbn [seq loopM]. exists es. split; [reflexivity|]. split; [reflexivity|]. intros j e E. rewrite E. unfold covers. rewrite H.
    destruct (in_start x <=? j) eqn:L; [|reflexivity]. apply Nat.leb_le in L. destruct (j <? in_start x + 0) eqn:M; [apply Nat.ltb_lt in M; lia|reflexivity].
  - apply mark_range. lia.
Qed.
Lemma mark_trace_acc l : forall done es es0, length es = length es0 -> Forall (fits (length es)) l ->
  (forall j e, nth_error es0 j = Some e -> nth_error es j = Some (marked done j e)) ->
  exists es', mark_trace l es = Ok es' /\ length es' = length es0 /\ forall j e, nth_error es0 j = Some e -> nth_error es' j = Some (marked (done ++ l) j e).
Proof.
  unfold mark_trace. induction l as [|x l IH]; intros done es es0 HL HF H; cbn [loopM].
  - exists es. rewrite app_nil_r. auto.
  - inversion HF as [|? ? Hx Hl]; subst. destruct (mark_step x es Hx) as [e1 [E1 [L1 N1]]]. rewrite E1. cbn [bind].
    destruct (IH (done ++ [x]) e1 es0) as [e2 [E2 [L2 N2]]]; [congruence|rewrite L1; exact Hl| |].
    + intros j e E. rewrite (N1 _ _ (H _ _ E)). f_equal. unfold marked. rewrite rev_app_distr. cbn [rev app find].
      destruct (covers j x); [|reflexivity]. destruct (find (covers j) (rev done)); [|reflexivity]. unfold eset. apply dset_dset.
    + exists e2. rewrite <- app_assoc in N2. auto.
Qed.
Lemma mark_trace_ok l es : Forall (fits (length es)) l ->
  exists es', mark_trace l es = Ok es' /\ length es' = length es /\ forall j e, nth_error es j = Some e -> nth_error es' j = Some (marked l j e).
Proof. intros H. apply (mark_trace_acc l [] es es eq_refl H). intros j e E. exact E. Qed.
Lemma mark_trace_err l : forall es, ~ Forall (fits (length es)) l -> mark_trace l es = Err IndexError.
Proof.
  induction l as [|x l IH]; intros es H; [exfalso; apply H; constructor|]. unfold mark_trace. cbn [loopM].
  destruct (Nat.eq_dec (in_length x) 0) as [E0|E0]; [|destruct (Nat.le_gt_cases (in_start x + in_length x) (length es)) as [L|L]].
  - destruct (mark_step x es (or_introl E0)) as [e1 [E1 [L1 _]]]. rewrite E1. cbn [bind]. apply IH. rewrite L1. intros X. apply H. constructor; [left; exact E0|exact X].
  - destruct (mark_step x es (or_intror L)) as [e1 [E1 [L1 _]]]. rewrite E1. cbn [bind]. apply IH. rewrite L1. intros X. apply H. constructor; [right; exact L|exact X].
  - unfold range. replace (in_start x + in_length x - in_start x) with (in_length x) by lia. rewrite mark_range_err by lia. reflexivity.
Qed.
Lemma mark_log_ok instances : forall traces,
  (forall i a t, nth_error instances i = Some a -> nth_error traces i = Some t -> Forall (fits (length t)) a) ->
  exists r, mark_log instances traces = Ok r /\ map (@length _) r = map (@length _) traces /\
    forall i t j e, nth_error traces i = Some t -> nth_error t j = Some e ->
      exists t', nth_error r i = Some t' /\ nth_error t' j = Some (marked (nth i instances []) j e).
Proof.
  induction instances as [|a ar IH]; intros traces H.
  - exists traces. split; [destruct traces; reflexivity|]. split; [reflexivity|]. intros i t j e E1 E2. exists t. split; [exact E1|]. rewrite E2. destruct i; reflexivity.
  - destruct traces as [|t tr]; cbn [mark_log].
    + exists []. split; [reflexivity|]. split; [reflexivity|]. intros [|i] t j e E1; discriminate E1.
    + destruct (mark_trace_ok a t (H 0 a t eq_refl eq_refl)) as [t' [E1 [L1 N1]]]. rewrite E1. cbn [bind].
      destruct (IH tr) as [r [E2 [L2 N2]]]; [intros i; exact (H (S i))|]. rewrite E2. cbn [bind]. eexists. split; [reflexivity|]. split; [cbn; congruence|].
      intros [|i] u j e X1 X2; cbn [nth_error nth] in *; [|eauto]. injection X1 as <-. eauto.
Qed.
Lemma mark_log_err instances : forall traces,
  (exists i a t, nth_error instances i = Some a /\ nth_error traces i = Some t /\ ~ Forall (fits (length t)) a) -> mark_log instances traces = Err IndexError.
Proof.
  induction instances as [|a ar IH]; intros traces [i [b [t [H1 [H2 H3]]]]]; [destruct i; discriminate|]. destruct traces as [|u tr]; [destruct i; discriminate|]. cbn [mark_log].
  destruct i as [|i]; cbn in H1, H2.
  - injection H1 as <-. injection H2 as <-. rewrite mark_trace_err by exact H3. reflexivity.
  - rewrite (IH tr) by eauto 6. destruct (Forall_dec (fits (length u)) (fun x => match Nat.eq_dec (in_length x) 0 with left E => left (or_introl E) | right N => match le_dec (in_start x + in_length x) (length u) with left L => left (or_intror L) | right M => right (fun f => match f with or_introl E => N E | or_intror L => M L end) end end) a) as [Y|Y].
    + destruct (mark_trace_ok a u Y) as [t' [E _]]. rewrite E. reflexivity.
    + rewrite mark_trace_err by exact Y. reflexivity.
Qed.

(** The file of instances' names. *)
Lemma firsts_filter p l : (forall x y : ndata, nd_id x = nd_id y -> p x = p y) -> filter p (firsts l) = firsts (filter p l).
Proof.
  intros Hp. assert (FF : forall q r (k : list ndata), filter q (filter r k) = filter r (filter q k)).
  { intros q r k. induction k as [|x k IH]; [reflexivity|]. cbn. destruct (q x) eqn:Q, (r x) eqn:R; cbn; rewrite ?Q, ?R, IH; reflexivity. }
  induction l as [|x l IH]; [reflexivity|]. cbn [firsts filter]. destruct (p x) eqn:E.
  - cbn [firsts]. rewrite FF, IH. reflexivity.
  - rewrite FF, IH.
    assert (K : forall k, (forall y, In y k -> nd_id y <> nd_id x) -> filter (fun y => negb (N.eqb (nd_id y) (nd_id x))) k = k).
    { induction k as [|y k IHk]; intros Hk; [reflexivity|]. cbn. destruct (N.eqb_spec (nd_id y) (nd_id x)) as [X|X]; [exfalso; apply (Hk y); [left; reflexivity|exact X]|].
      cbn. rewrite IHk; [reflexivity|]. intros z Hz. apply Hk. right. exact Hz. }
    apply K. rewrite <- IH. intros y Hy X. apply filter_In in Hy. destruct Hy as [_ Hy]. rewrite (Hp y x X), E in Hy. discriminate Hy.
Qed.
Lemma save_names_acc l : forall seen text,
  snd (fold_left (fun st (activity : inst) => let node := an_data (in_node activity) in
         if existsb (N.eqb (nd_id node)) (fst st) then st
         else (fst st ++ [nd_id node], snd st ++ nd_unique node ++ str "=" ++ nd_name node ++ newline)) l (seen, text)) =
  text ++ flat_map name_line (firsts (filter (fun n => negb (existsb (N.eqb (nd_id n)) seen)) (map (fun x => an_data (in_node x)) l))).
Proof.
  induction l as [|x l IH]; intros seen text; cbn [fold_left map filter].
  - cbn. rewrite app_nil_r. reflexivity.
  - cbn [fst snd]. set (n := an_data (in_node x)). destruct (existsb (N.eqb (nd_id n)) seen) eqn:E; cbn [negb].
    + apply IH.
    + rewrite IH. cbn [firsts flat_map]. rewrite <- app_assoc. f_equal. change (nd_unique n ++ str "=" ++ nd_name n ++ newline) with (name_line n). f_equal.
      f_equal. rewrite firsts_filter by (intros a b ->; reflexivity). f_equal.
      generalize (map (fun x => an_data (in_node x)) l). intros k. induction k as [|y k IHk]; [reflexivity|]. cbn [filter].
      rewrite existsb_app. cbn [existsb]. rewrite orb_false_r. destruct (existsb (N.eqb (nd_id y)) seen); cbn [orb negb filter]; [exact IHk|].
      destruct (N.eqb (nd_id y) (nd_id n)); cbn [negb]; [exact IHk|]. rewrite IHk. reflexivity.
Qed.
Lemma save_names_proof instances : save_instances_names instances = flat_map name_line (firsts (map (fun x => an_data (in_node x)) (concat instances))).
Proof.
  unfold save_instances_names. rewrite save_names_acc. cbn [app]. do 2 f_equal. induction (map _ (concat instances)) as [|x l IH]; [reflexivity|]. cbn [filter existsb negb]. f_equal. exact IH.
Qed.
Lemma firsts_spec l : NoDup (map nd_id (firsts l)) /\ forall i, In i (map nd_id (firsts l)) <-> In i (map nd_id l).
Proof.
  induction l as [|x l [IH1 IH2]]; [split; [constructor|intros; reflexivity]|]. cbn [firsts map]. split.
  - constructor.
    + intros X. apply in_map_iff in X. destruct X as [y [E Hy]]. apply filter_In in Hy. destruct Hy as [_ Hy]. rewrite E, N.eqb_refl in Hy. discriminate Hy.
    + clear -IH1. induction (firsts l) as [|y k IHk]; [constructor|]. cbn [map filter] in *. inversion IH1; subst. destruct (negb _); cbn [map]; [|auto]. constructor; [|auto].
      intros X. apply H1. apply in_map_iff in X. destruct X as [z [E Hz]]. apply filter_In in Hz. rewrite <- E. apply in_map. apply Hz.
  - intros i. cbn [In]. rewrite <- IH2. split.
    + intros [H|H]; [left; exact H|right]. apply in_map_iff in H. destruct H as [y [<- Hy]]. apply filter_In in Hy. apply in_map. apply Hy.
    + intros [H|H]; [left; exact H|]. destruct (N.eq_dec (nd_id x) i) as [E|E]; [left; exact E|right]. apply in_map_iff in H. destruct H as [y [<- Hy]].
      apply in_map. apply filter_In. split; [exact Hy|]. apply negb_true_iff, N.eqb_neq. congruence.
Qed.

(** The file of instances. *)
Definition inst_text (x : inst) : pystr :=
  str "(" ++ nd_unique (an_data (in_node x)) ++ str ", " ++ show_int (Z.of_nat (in_start x)) ++ str ", " ++ show_int (Z.of_nat (in_length x)) ++ str ")".

Lemma show_nat_digits n c : In c (show_int (Z.of_nat n)) -> (48 <= c <= 57)%N.
Proof.
  assert (K : forall u, In c (show_uint u) -> (48 <= c <= 57)%N).
  { induction u as [|u IH|u IH|u IH|u IH|u IH|u IH|u IH|u IH|u IH|u IH]; cbn [show_uint]; intros H; [destruct H|..]; (destruct H as [<-|H]; [lia|apply IH; exact H]). }
  unfold show_int. destruct n as [|n]; [intros H; apply (K (Decimal.D0 Decimal.Nil)); exact H|]. cbn [Z.of_nat Z.to_int]. apply K.
Qed.
Lemma until_sep (c : N) a b x y : ~ In c a -> ~ In c b -> a ++ c :: x = b ++ c :: y -> a = b /\ x = y.
Proof.
  revert b. induction a as [|p a IH]; intros [|q b] Ha Hb E; cbn in E.
  - injection E as E. auto.
  - injection E as <- _. exfalso. apply Hb. left. reflexivity.
  - injection E as -> _. exfalso. apply Ha. left. reflexivity.
  - injection E as <- E. destruct (IH b) as [-> ->]; auto; intros X; [apply Ha|apply Hb]; right; exact X.
Qed.
Lemma inst_text_inj x y r s : tag_ok x -> tag_ok y -> inst_text x ++ newline ++ r = inst_text y ++ newline ++ s -> tag x = tag y /\ r = s.
Proof.
  intros [Hx _] [Hy _] E. unfold inst_text in E. rewrite <- !app_assoc in E. cbn [app] in E. change (str "(") with [40%N] in E. cbn [app] in E. injection E as E.
  change (str ", ") with [44; 32]%N in E. cbn [app] in E. apply until_sep in E; [|exact Hx|exact Hy]. destruct E as [E1 E]. injection E as E.
  assert (D : forall n c, (c < 48)%N -> ~ In c (show_int (Z.of_nat n))) by (intros n c Hc X; apply show_nat_digits in X; lia).
  apply until_sep in E; [|apply D; lia|apply D; lia]. destruct E as [E2 E]. injection E as E. change (str ")") with [41%N] in E. cbn [app] in E.
  apply until_sep in E; [|apply D; lia|apply D; lia]. destruct E as [E3 E]. injection E as E.
  apply show_int_inj in E2. apply show_int_inj in E3. unfold tag. split; [|exact E]. rewrite E1, (Nat2Z.inj _ _ E2), (Nat2Z.inj _ _ E3). reflexivity.
Qed.
Lemma lines_inj l : forall m r s, Forall tag_ok l -> Forall tag_ok m ->
  flat_map instance_line l ++ newline ++ r = flat_map instance_line m ++ newline ++ s -> map tag l = map tag m /\ r = s.
Proof.
  assert (EL : forall x, instance_line x = inst_text x ++ newline) by (intros x; unfold instance_line, inst_text; rewrite <- !app_assoc; reflexivity).
  induction l as [|x l IH]; intros [|y m] r s Hl Hm E; cbn [flat_map map] in *.
  - injection E as E. auto.
  - exfalso. rewrite EL in E. discriminate E.
  - exfalso. rewrite EL in E. discriminate E.
  - inversion Hl; inversion Hm; subst. rewrite !EL, <- !app_assoc in E. apply inst_text_inj in E; [|assumption|assumption]. destruct E as [E1 E].
    apply IH in E; [|assumption|assumption]. destruct E as [E2 E3]. rewrite E1, E2. auto.
Qed.
Lemma indices_inj a : forall k b, Forall (Forall tag_ok) a -> Forall (Forall tag_ok) b -> write_indices k a = write_indices k b -> map (map tag) a = map (map tag) b.
Proof.
  induction a as [|l a IH]; intros k [|m b] Ha Hb E; cbn [write_indices map] in *; try discriminate E; [reflexivity|].
  inversion Ha; inversion Hb; subst. apply app_inv_head in E. apply app_inv_head in E. apply app_inv_head in E.
  apply lines_inj in E; [|assumption|assumption]. destruct E as [E1 E2]. rewrite E1. f_equal. apply (IH (S k)); assumption.
Qed.
Lemma numbered_tag lo hi n x : in_node x = n -> numbered lo hi n -> tag_ok x.
Proof.
  intros <- [_ E]. unfold tag_ok. rewrite E. split; intros X; apply in_app_or in X; (destruct X as [X|X]; [cbn in X; intuition discriminate|]);
  rewrite <- (N2Nat.id (nd_id (an_data (in_node x)))) in X; rewrite nat_N_Z in X; apply show_nat_digits in X; lia.
Qed.

(** Names by hash, breadth first. *)
Lemma hashes_loop_queue l : forall m f, hashes_loop (length l + f) (l ++ m) = bind (hashes_loop f (m ++ flat_map an_children l)) (fun r => Ok (map hash_line l ++ r)).
Proof.
  induction l as [|a l IH]; intros m f; cbn [length Nat.add app flat_map map].
  - rewrite app_nil_r. destruct (hashes_loop f m); reflexivity.
  - cbn [hashes_loop]. rewrite <- app_assoc, IH, <- app_assoc. destruct (hashes_loop f _); reflexivity.
Qed.
Lemma count_children l : list_sum (map node_count l) = length l + list_sum (map node_count (flat_map an_children l)).
Proof.
  induction l as [|[d s c] l IH]; [reflexivity|]. cbn [map list_sum length flat_map an_children node_count fold_right]. rewrite map_app, list_sum_app. unfold list_sum in *. lia.
Qed.
Lemma depth_shift l h : flat_map (fun d => depth_ d l) (seq 1 h) = flat_map (fun d => depth_ d (flat_map an_children l)) (seq 0 h).
Proof. rewrite <- seq_shift. induction (seq 0 h) as [|j r IH]; [reflexivity|]. cbn [map flat_map depth_]. rewrite IH. reflexivity. Qed.
Lemma hashes_depth h : forall l f, depth_ h l = [] -> list_sum (map node_count l) < f ->
  hashes_loop f l = Ok (map hash_line (flat_map (fun d => depth_ d l) (seq 0 h))).
Proof.
  induction h as [|h IH]; intros l f H Hf.
  - cbn in H. subst l. destruct f; [lia|]. reflexivity.
  - pose proof (count_children l) as E. replace f with (length l + (f - length l)) by lia. pose proof (hashes_loop_queue l [] (f - length l)) as Q. rewrite app_nil_r in Q. rewrite Q. cbn [app].
    rewrite (IH (flat_map an_children l)) by (exact H || lia). cbn [bind seq flat_map]. rewrite map_app, depth_shift. reflexivity.
Qed.
Lemma depth_ends : forall n l, list_sum (map node_count l) <= n -> exists h, depth_ h l = [].
Proof.
  induction n as [|n IH]; intros l H.
  - exists 0. destruct l as [|[d s c] l]; [reflexivity|]. cbn in H. lia.
  - destruct l as [|a l]; [exists 0; reflexivity|]. destruct (IH (flat_map an_children (a :: l))) as [h Hh]; [rewrite count_children in H; cbn [length] in H; lia|].
    exists (S h). exact Hh.
Qed.
Lemma everywhere_layers F : Permutation (everywhere F) (F ++ everywhere (flat_map an_children F)).
Proof.
  unfold everywhere. induction F as [|[d s c] F IH]; [constructor|]. cbn [flat_map nodes_of app an_children]. apply perm_skip. rewrite IH, flat_map_app.
  rewrite !app_assoc. apply Permutation_app_tail. apply Permutation_app_comm.
Qed.
Lemma depth_all h : forall F, depth_ h F = [] -> Permutation (everywhere F) (flat_map (fun d => depth_ d F) (seq 0 h)).
Proof.
  induction h as [|h IH]; intros F H.
  - cbn in H. subst F. constructor.
  - rewrite everywhere_layers. change (seq 0 (S h)) with (0 :: seq 1 h). cbn [flat_map depth_]. apply Permutation_app_head. rewrite (IH _ H), depth_shift. reflexivity.
Qed.
Lemma names_to_hashes_proof F : exists h, depth_ h F = [] /\ print_names_to_hashes F = Ok (map hash_line (flat_map (fun d => depth_ d F) (seq 0 h))) /\
  Permutation (flat_map (fun d => depth_ d F) (seq 0 h)) (everywhere F).
Proof.
  destruct (depth_ends _ F (Nat.le_refl _)) as [h Hh]. exists h. split; [exact Hh|]. split; [apply hashes_depth; [exact Hh|lia]|]. apply Permutation_sym, depth_all. exact Hh.
Qed.

(** The file of names. *)
Notation nm := (fun a : anode ndata => nd_name (an_data a)).
Lemma count_pushed c q : list_sum (map node_count (rev c ++ q)) = list_sum (map node_count c) + list_sum (map node_count q).
Proof. rewrite map_app, list_sum_app. f_equal. rewrite map_rev. generalize (map node_count c). intros l. induction l as [|x l IH]; [reflexivity|]. cbn [rev]. rewrite list_sum_app. change (list_sum (x :: l)) with (x + list_sum l). change (list_sum [x]) with (x + 0). lia. Qed.
Lemma names_loop_spec f : forall q visited, list_sum (map node_count q) < f ->
  exists shown, names_loop f q visited = Ok (map nm shown) /\ (NoDup visited -> NoDup (visited ++ map nm shown)) /\ incl shown (everywhere q) /\
    (forall a, In a q -> In (nm a) (visited ++ map nm shown)) /\
    (forall a c, In a shown -> In c (an_children a) -> In (nm c) (visited ++ map nm shown)).
Proof.
  induction f as [|f IH]; intros q visited Hf; [lia|]. cbn [names_loop]. destruct q as [|a q].
  - exists []. rewrite app_nil_r. split; [reflexivity|]. split; [auto|]. split; [intros x []|]. split; [intros x []|intros x c []].
  - destruct a as [d s c]. cbn [an_data an_children]. cbn [map list_sum node_count fold_right] in Hf. destruct (existsb (str_eqb (nd_name d)) visited) eqn:E.
    + apply existsb_name in E. destruct (IH q visited) as [shown [E1 [N1 [I1 [T1 K1]]]]]; [unfold list_sum in *; lia|]. exists shown. split; [exact E1|]. split; [exact N1|].
      split; [intros x Hx; right; apply in_or_app; right; apply I1; exact Hx|]. split; [|exact K1]. intros x [<-|Hx]; [apply in_or_app; left; exact E|apply T1; exact Hx].
    + assert (Hn : ~ In (nd_name d) visited) by (intros X; apply existsb_name in X; congruence).
      destruct (IH (rev c ++ q) (nd_name d :: visited)) as [shown [E1 [N1 [I1 [T1 K1]]]]]; [rewrite count_pushed; unfold list_sum in *; lia|].
      rewrite E1. cbn [bind]. exists (ANode d s c :: shown). split; [reflexivity|].
      assert (P : Permutation ((nd_name d :: visited) ++ map nm shown) (visited ++ map nm (ANode d s c :: shown))) by (cbn [map an_data app]; apply Permutation_middle).
      split; [intros HN; eapply Permutation_NoDup; [exact P|]; apply N1; constructor; assumption|].
      split. { intros x [<-|Hx]; [left; reflexivity|]. apply I1 in Hx. unfold everywhere in Hx |- *. rewrite flat_map_app in Hx. cbn [flat_map nodes_of]. right. apply in_app_or in Hx. apply in_or_app.
        destruct Hx as [Hx|Hx]; [left|right; exact Hx]. apply in_flat_map in Hx. destruct Hx as [y [Hy Hx]]. apply in_flat_map. exists y. split; [apply in_rev; exact Hy|exact Hx]. }
      split.
      * intros x [<-|Hx]; [apply in_or_app; right; left; reflexivity|]. eapply Permutation_in; [exact P|]. apply T1. apply in_or_app. right. exact Hx.
      * intros x y [<-|Hx] Hy; (eapply Permutation_in; [exact P|]); [|eapply K1; eassumption]. apply T1. apply in_or_app. left. apply -> in_rev. exact Hy.
Qed.
Lemma backwards_eq d s c : backwards (ANode d s c) = ANode d s c :: flat_map backwards (rev c).
Proof. cbn [backwards]. f_equal. rewrite <- map_rev. rewrite flat_map_concat_map, map_id, <- flat_map_concat_map. reflexivity. Qed.
Lemma names_loop_all f : forall q visited, list_sum (map node_count q) < f -> NoDup (visited ++ map nm (flat_map backwards q)) ->
  names_loop f q visited = Ok (map nm (flat_map backwards q)).
Proof.
  induction f as [|f IH]; intros q visited Hf HN; [lia|]. cbn [names_loop]. destruct q as [|a q]; [reflexivity|].
  destruct a as [d s c]. cbn [an_data an_children]. cbn [map list_sum node_count fold_right] in Hf. cbn [flat_map] in *. rewrite backwards_eq in *. cbn [app map an_data] in *.
  destruct (existsb (str_eqb (nd_name d)) visited) eqn:E.
  - exfalso. apply existsb_name in E. apply NoDup_remove_2 in HN. apply HN. apply in_or_app. left. exact E.
  - rewrite (IH (rev c ++ q) (nd_name d :: visited)).
    + cbn [bind]. rewrite flat_map_app, map_app. reflexivity.
    + rewrite count_pushed. unfold list_sum in *. lia.
    + eapply Permutation_NoDup; [apply Permutation_sym, Permutation_middle|]. rewrite flat_map_app. exact HN.
Qed.
Lemma anode_ind2 {D} (P : anode D -> Prop) : (forall d s c, Forall P c -> P (ANode d s c)) -> forall n, P n.
Proof. intros H. fix IH 1. intros [d s c]. apply H. induction c as [|x c IHc]; constructor; [apply IH|exact IHc]. Qed.
Lemma flat_map_perm_Forall {A B} (f g : A -> list B) l : Forall (fun x => Permutation (f x) (g x)) l -> Permutation (flat_map f l) (flat_map g l).
Proof. induction 1; [constructor|]. cbn [flat_map]. apply Permutation_app; assumption. Qed.
Lemma backwards_perm a : Permutation (backwards a) (nodes_of a).
Proof.
  induction a as [d s c IH] using anode_ind2. rewrite backwards_eq. cbn [nodes_of]. apply perm_skip.
  rewrite (ClassProofs.flat_map_perm backwards (rev c) c) by apply Permutation_sym, Permutation_rev. apply flat_map_perm_Forall. exact IH.
Qed.
Lemma backwards_all l : Permutation (flat_map backwards (rev l)) (everywhere l).
Proof.
  rewrite (ClassProofs.flat_map_perm backwards (rev l) l) by apply Permutation_sym, Permutation_rev. apply flat_map_perm_Forall. apply Forall_forall. intros a _. apply backwards_perm.
Qed.
Lemma count_rev l : list_sum (map node_count (rev l)) = list_sum (map node_count l).
Proof. pose proof (count_pushed l []) as H. rewrite app_nil_r in H. cbn in H. lia. Qed.

Lemma names_of_level_spec l : exists shown, names_of_level l = Ok (map nm shown) /\ NoDup (map nm shown) /\ incl shown (everywhere l) /\
  (forall a, In a l -> In (nm a) (map nm shown)) /\ (forall a c, In a shown -> In c (an_children a) -> In (nm c) (map nm shown)).
Proof.
  unfold names_of_level. destruct (names_loop_spec (S (list_sum (map node_count l))) (rev l) []) as [shown [E [N [I [T K]]]]]; [rewrite count_rev; lia|].
  exists shown. split; [exact E|]. split; [apply N; constructor|]. split.
  - intros x Hx. apply I in Hx. unfold everywhere in *. apply in_flat_map in Hx. destruct Hx as [y [Hy Hx]]. apply in_flat_map. exists y. split; [apply in_rev; exact Hy|exact Hx].
  - split; [|exact K]. intros a Ha. apply T. apply -> in_rev. exact Ha.
Qed.
Lemma names_of_level_all l : NoDup (map nm (everywhere l)) -> names_of_level l = Ok (map nm (flat_map backwards (rev l))).
Proof.
  intros H. apply names_loop_all; [rewrite count_rev; lia|]. cbn [app]. eapply Permutation_NoDup; [apply Permutation_sym, Permutation_map, backwards_all|exact H].
Qed.

Lemma saved_eq acts (f : list (anode ndata) -> list pystr) : (forall k l, In (k, l) (split_activities_by_level acts) -> names_of_level l = Ok (f l)) ->
  save_all_names acts = Ok (flat_map (fun p => level_section (fst p) (f (snd p))) (split_activities_by_level acts)).
Proof.
  unfold save_all_names. intros H. induction (split_activities_by_level acts) as [|[k l] r IH]; [reflexivity|]. cbn [mapM fst snd].
  rewrite (H k l) by (left; reflexivity). cbn [bind].
  assert (IH' := IH (fun k' l' Hin => H k' l' (or_intror Hin))). clear IH.
  destruct (mapM _ r) as [ts|] eqn:E; cbn [bind] in *; [|discriminate]. injection IH' as IH'. cbn [concat flat_map fst snd]. rewrite IH'.
  change (4 * 49) with 196 in *. unfold level_section, sep_string, newline. rewrite <- !app_assoc. reflexivity.
Qed.

(** Unattached events. *)
Lemma free_events l t : ordered 0 (length (t_events t)) l ->
  unattached_events l t = flat_map (fun j => match nth_error (t_events t) j with Some e => [e] | None => [] end) (free_positions l t).
Proof.
  intros H. rewrite (unattached_proof l t H). unfold free_positions. induction (seq 0 (length (t_events t))) as [|j r IH]; [reflexivity|]. cbn [flat_map filter].
  rewrite IH. destruct (covered_b l j); reflexivity.
Qed.
Lemma free_count l t : ordered 0 (length (t_events t)) l -> length (unattached_events l t) = length (free_positions l t).
Proof.
  intros H. rewrite (free_events l t H).
  assert (K : forall j, In j (free_positions l t) -> exists e, nth_error (t_events t) j = Some e).
  { intros j Hj. apply filter_In in Hj. destruct Hj as [Hj _]. apply in_seq in Hj. destruct (nth_error (t_events t) j) as [e|] eqn:E; [eauto|]. apply nth_error_None in E. lia. }
  induction (free_positions l t) as [|j r IH]; [reflexivity|]. cbn [flat_map length]. destruct (K j (or_introl eq_refl)) as [e ->]. cbn. f_equal. apply IH. intros i Hi. apply K. right. exact Hi.
Qed.

Lemma zip_combine {A B} (l : list A) (m : list B) : zip l m = combine l m.
Proof. reflexivity. Qed.
Lemma share_proof l instances : Forall2 (fun a t => ordered 0 (length (t_events t)) a) instances (l_traces l) ->
  let total := list_sum (map (fun t => length (t_events t)) (l_traces l)) in
  let free := list_sum (map (fun p => length (free_positions (fst p) (snd p))) (combine instances (l_traces l))) in
  unattached_share l instances = (if total =? 0 then None else Some (free, total)) /\ free <= total.
Proof.
  intros H total free. unfold unattached_share, calculate_events_count. rewrite map_map. fold total.
  assert (E : list_sum (map (fun t => length (t_events t)) (l_traces (create_unattached_events_log l instances))) = free).
  { unfold create_unattached_events_log, free. cbn [l_traces log_of_traces]. rewrite map_map. rewrite zip_combine. clear total free.
    induction H as [|a t ar tr Ha _ IH]; [reflexivity|]. cbn [combine]. rewrite !map_cons. unfold list_sum in *. cbn [fold_right]. rewrite IH. f_equal.
    exact (free_count a t Ha). }
  rewrite E. split; [reflexivity|]. unfold free, total. clear E free total.
  induction H as [|a t ar tr _ _ IH]; [apply le_n|]. cbn [combine map fst snd list_sum fold_right] in *.
  assert (length (free_positions a t) <= length (t_events t)).
  { unfold free_positions. rewrite <- (seq_length (length (t_events t)) 0) at 2. generalize (seq 0 (length (t_events t))). intros k. induction k as [|x k IHk]; [apply le_n|]. cbn. destruct (negb _); cbn; lia. }
  unfold list_sum in *. lia.
Qed.
Lemma unattached_names_proof order l instances : (forall k, Permutation (order k) k) ->
  Forall2 (fun a t => ordered 0 (length (t_events t)) a) instances (l_traces l) ->
  (forall t e, In t (l_traces l) -> In e (t_events t) -> exists s, eget e concept_name = Some (VStr s)) ->
  exists names, unattached_names order l instances = Ok names /\ NoDup names /\
    forall s, In s names <-> exists i a t j e, nth_error instances i = Some a /\ nth_error (l_traces l) i = Some t /\
      In j (free_positions a t) /\ nth_error (t_events t) j = Some e /\ eget e concept_name = Some (VStr s).
Proof.
  intros Ho H Hn. unfold unattached_names.
  set (es := flat_map t_events (l_traces (create_unattached_events_log l instances))).
  assert (HI : forall e, In e es <-> exists i a t j, nth_error instances i = Some a /\ nth_error (l_traces l) i = Some t /\ In j (free_positions a t) /\ nth_error (t_events t) j = Some e).
  { intros e. unfold es, create_unattached_events_log. cbn [l_traces log_of_traces]. rewrite zip_combine. clear Hn es.
    induction H as [|a t ar tr Ha _ IH]; cbn [combine map flat_map].
    - split; [intros []|]. intros [i [a [t [j [X _]]]]]. destruct i; discriminate X.
    - cbn [fst snd t_events trace_of_events]. rewrite in_app_iff, IH, (free_events a t Ha), in_flat_map. split.
      + intros [[j [Hj X]]|[i [b [u [j X]]]]]; [|exists (S i), b, u, j; exact X]. exists 0, a, t, j. destruct (nth_error (t_events t) j) as [e'|]; [|destruct X]. destruct X as [<-|[]]. auto.
      + intros [[|i] [b [u [j [X1 [X2 [X3 X4]]]]]]]; cbn in X1, X2; [|right; exists i, b, u, j; auto]. injection X1 as <-. injection X2 as <-. left. exists j. rewrite X4. split; [exact X3|left; reflexivity]. }
  assert (HN : forall e, In e es -> exists s, eget e concept_name = Some (VStr s)).
  { intros e He. apply HI in He. destruct He as [i [a [t [j [_ [X1 [_ X2]]]]]]]. apply (Hn t e); eapply nth_error_In; eassumption. }
  assert (HM : exists ns, mapM name_of_event es = Ok ns /\ forall s, In s ns <-> exists e, In e es /\ eget e concept_name = Some (VStr s)).
  { clear HI. induction es as [|e k IH]; [exists []; split; [reflexivity|]; intros s; split; [intros []|intros [e [[] _]]]|].
    destruct IH as [ns [E1 E2]]; [intros x Hx; apply HN; right; exact Hx|]. destruct (HN e (or_introl eq_refl)) as [s Es].
    assert (Ee : name_of_event e = Ok s) by (unfold name_of_event, egetitem, dgetitem; unfold eget in Es; rewrite Es; reflexivity).
    exists (s :: ns). cbn [mapM]. rewrite Ee, E1. split; [reflexivity|]. intros s'. cbn [In]. rewrite E2. split.
    - intros [<-|[x [Hx X]]]; [exists e; auto|exists x; auto].
    - intros [x [[<-|Hx] X]]; [left; rewrite Es in X; injection X as <-; reflexivity|right; exists x; auto]. }
  destruct HM as [ns [E1 E2]]. rewrite E1. cbn [bind]. eexists. split; [reflexivity|]. split.
  - eapply Permutation_NoDup; [apply Permutation_sym, Ho|apply NoDup_nodup].
  - intros s. assert (X : In s (order (nodup str_eq_dec ns)) <-> In s ns) by (rewrite <- (nodup_In str_eq_dec ns s); split; apply Permutation_in; [|apply Permutation_sym]; apply Ho).
    rewrite X, E2. split.
    + intros [e [He Es]]. apply HI in He. destruct He as [i [a [t [j Y]]]]. exists i, a, t, j, e. tauto.
    + intros [i [a [t [j [e Y]]]]]. exists e. split; [apply HI; exists i, a, t, j; tauto|tauto].
Qed.
Lemma ordered_fits (l : list inst) : forall lo hi, ordered lo hi l -> lo <= hi /\ Forall (fun x => lo <= in_start x /\ 0 < in_length x /\ in_end x <= hi) l.
Proof.
  induction l as [|x l IH]; intros lo hi H; cbn [ordered] in H; [split; [lia|constructor]|].
  destruct H as [H1 [H2 H3]]. destruct (IH _ _ H3) as [H4 H5]. unfold in_end in *. split; [lia|]. constructor; [unfold in_end; lia|].
  eapply Forall_impl; [|exact H5]. cbn. intros y. unfold in_end. lia.
Qed.
Lemma ordered_once (l : list inst) : forall lo hi j x y, ordered lo hi l -> In x l -> In y l -> in_start x <= j < in_end x -> in_start y <= j < in_end y -> x = y.
Proof.
  induction l as [|z l IH]; intros lo hi j x y H Hx Hy Jx Jy; [destruct Hx|]. cbn [ordered] in H. destruct H as [H1 [H2 H3]].
  destruct (ordered_fits l _ _ H3) as [_ HF]. rewrite Forall_forall in HF. destruct Hx as [<-|Hx], Hy as [<-|Hy]; [reflexivity|..].
  - specialize (HF y Hy). lia.
  - specialize (HF x Hx). lia.
  - eapply IH; eassumption.
Qed.
Lemma marked_iff_proof instances traces :
  Forall2 (fun a t => ordered 0 (length t) a) instances traces ->
  exists r, mark_log instances traces = Ok r /\
    forall i a t t' j e, nth_error instances i = Some a -> nth_error traces i = Some t -> nth_error r i = Some t' -> nth_error t j = Some e -> eget e activity_key = None ->
    exists e', nth_error t' j = Some e' /\
      forall n, eget e' activity_key = Some (VStr n) <-> exists x, In x a /\ in_start x <= j < in_end x /\ nd_unique (an_data (in_node x)) = n.
Proof.
  intros H. assert (HO : forall i a t, nth_error instances i = Some a -> nth_error traces i = Some t -> ordered 0 (length t) a).
  { intros i a t Ha Ht. destruct (Forall2_nth _ _ _ H _ _ Ha) as [t' [Et Ho]]. rewrite Ht in Et. injection Et as <-. exact Ho. }
  destruct (mark_log_ok instances traces) as [r [E [_ N]]].
  { intros i a t Ha Ht. destruct (ordered_fits _ _ _ (HO i a t Ha Ht)) as [_ HF]. eapply Forall_impl; [|exact HF]. cbn. intros x Hx. right. unfold in_end in Hx. lia. }
  exists r. split; [exact E|]. intros i a t t' j e Ha Ht Ht' He Hn. destruct (N i t j e Ht He) as [t'' [Et'' Ej]]. rewrite Ht' in Et''. injection Et'' as <-.
  exists (marked a j e). rewrite (nth_error_nth _ _ [] Ha) in Ej. split; [exact Ej|]. intros n. unfold marked.
  assert (HC : forall x, covers j x = true <-> in_start x <= j < in_end x) by (intros x; unfold covers, in_end; rewrite andb_true_iff, Nat.leb_le, Nat.ltb_lt; reflexivity).
  destruct (find (covers j) (rev a)) as [x|] eqn:F.
  - apply find_some in F. destruct F as [F1 F2]. apply in_rev in F1. apply HC in F2. unfold eget, eset. rewrite dget_dset_same. split.
    + intros X. injection X as <-. exists x. auto.
    + intros [y [Hy [Jy <-]]]. rewrite (ordered_once a _ _ j x y (HO i a t Ha Ht) F1 Hy F2 Jy). reflexivity.
  - rewrite Hn. split; [discriminate|]. intros [x [Hx [Jx _]]]. apply HC in Jx. rewrite (find_none _ _ F x) in Jx; [discriminate Jx|]. apply -> in_rev. exact Hx.
Qed.

Lemma choose_list (P : Z -> list (anode ndata) -> Prop) : (forall k, exists s, P k s) -> forall ks, exists f, forall k, In k ks -> P k (f k).
Proof.
  intros H ks. induction ks as [|k ks [f Hf]]; [exists (fun _ => []); intros k []|]. destruct (H k) as [s Hs].
  exists (fun k' => if Z.eq_dec k k' then s else f k'). intros k' Hk. destruct (Z.eq_dec k k') as [<-|Hne]; [exact Hs|]. apply Hf. destruct Hk as [Hk|Hk]; [contradiction|exact Hk].
Qed.
Lemma saved_names_proof acts : exists ks (shown : Z -> list (anode ndata)),
  StronglySorted Z.lt ks /\ (forall k, In k ks <-> exists a, In a acts /\ nd_level (an_data a) = k) /\
  save_all_names acts = Ok (flat_map (fun k => level_section k (map (fun a => nd_name (an_data a)) (shown k))) ks) /\
  forall k, In k ks -> let tops := filter (fun a => (nd_level (an_data a) =? k)%Z) acts in let names := map (fun a => nd_name (an_data a)) (shown k) in
    NoDup names /\ incl (shown k) (everywhere tops) /\ (forall a, In a tops -> In (nd_name (an_data a)) names) /\
    (forall a c, In a (shown k) -> In c (an_children a) -> In (nd_name (an_data c)) names).
Proof.
  destruct (by_level_proof acts) as [ks [E [HS HI]]]. exists ks.
  destruct (choose_list _ (fun k => names_of_level_spec (filter (fun a => (nd_level (an_data a) =? k)%Z) acts)) ks) as [f Hf].
  exists f. split; [exact HS|]. split; [exact HI|]. split; [|intros k Hk; destruct (Hf k Hk) as [_ X]; exact X].
  rewrite (saved_eq acts (fun l => match names_of_level l with Ok r => r | Err _ => [] end)).
  - rewrite E. f_equal. clear E HS HI. induction ks as [|k ks IH]; [reflexivity|]. cbn [map flat_map fst snd]. destruct (Hf k (or_introl eq_refl)) as [X _].
    rewrite IH by (intros k' Hk'; apply Hf; right; exact Hk'). f_equal. f_equal. unfold of_level. rewrite X. reflexivity.
  - intros k l Hin. destruct (names_of_level_spec l) as [s [X _]]. rewrite X. reflexivity.
Qed.
Lemma saved_all_names_proof acts :
  (forall k, NoDup (map (fun a => nd_name (an_data a)) (everywhere (filter (fun a => (nd_level (an_data a) =? k)%Z) acts)))) ->
  exists ks, StronglySorted Z.lt ks /\ (forall k, In k ks <-> exists a, In a acts /\ nd_level (an_data a) = k) /\
  save_all_names acts = Ok (flat_map (fun k => level_section k (map (fun a => nd_name (an_data a)) (flat_map backwards (rev (filter (fun a => (nd_level (an_data a) =? k)%Z) acts))))) ks) /\
  forall l, Permutation (flat_map backwards (rev l)) (everywhere l).
Proof.
  intros H. destruct (by_level_proof acts) as [ks [E [HS HI]]]. exists ks. split; [exact HS|]. split; [exact HI|]. split; [|exact backwards_all].
  rewrite (saved_eq acts (fun l => map nm (flat_map backwards (rev l)))).
  - rewrite E. f_equal. clear E HS HI. induction ks as [|k ks IH]; [reflexivity|]. cbn [map flat_map fst snd]. rewrite IH. reflexivity.
  - intros k l Hin. rewrite E in Hin. apply in_map_iff in Hin. destruct Hin as [k' [X _]]. injection X as <- <-. apply names_of_level_all. apply H.
Qed.
