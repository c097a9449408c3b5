(** Lemmas about the discovering parts. *)
From Verif Require Import Py PyFacts LogModel HashModel PatternModel PatternSpec TreeModel TreeSpec ActModel ActSpec ActProofs
  ActLogModel ActLogSpec ActLogProofs SplitModel InfoModel HighModel HighSpec.

Lemma bind_ok {A B} (m : result A) (f : A -> result B) y : bind m f = Ok y -> exists x, m = Ok x /\ f x = Ok y.
Proof. destruct m; cbn; intros H; [eauto|discriminate]. Qed.
Lemma bind_ends {A B} (m : result A) (f : A -> result B) :
  m <> Err Diverges -> (forall x, m = Ok x -> f x <> Err Diverges) -> bind m f <> Err Diverges.
Proof. destruct m; cbn; intros H1 H2; [apply H2; reflexivity|]. intros E. apply H1. injection E as ->. reflexivity. Qed.
Lemma entry_ends {A} (o : option A) : entry o <> Err Diverges.
Proof. destruct o; discriminate. Qed.
Lemma mapM_ends {A B} (f : A -> result B) l : (forall x, In x l -> f x <> Err Diverges) -> mapM f l <> Err Diverges.
Proof.
  induction l as [|a l IH]; cbn; intros H; [discriminate|].
  apply bind_ends; [apply H; left; reflexivity|]. intros x _. apply bind_ends; [apply IH; auto|]. discriminate.
Qed.

Ltac undo := repeat match goal with
  | H : bind _ _ = Ok _ |- _ => let E := fresh "E" in apply bind_ok in H; destruct H as [? [E H]]
  | H : entry ?o = Ok _ |- _ => destruct o eqn:?; [|discriminate H]; injection H as H; subst
  end.

Section High.
  Variable uuids : nat -> pystr.
  Variable source : list (list N) -> list (list sub_array).
  Variables (ce : event -> result pystr) (strat : discovery) (accept : inst -> bool).

  Lemma hashes_lengths l hs : hashes_traces ce l = Ok hs -> Forall2 (fun t h => length h = length (t_events t)) (l_traces l) hs.
  Proof.
    unfold hashes_traces. intros H. apply mapM_ok_inv in H.
    induction H as [|t h ts hs H _ IH]; constructor; [|exact IH]. unfold do_create_hashes in H. undo. injection H as <-.
    rewrite map_length. eapply mapM_length. eassumption.
  Qed.
  Lemma from_patterns_keeps level c g c' g' : discover_from_patterns uuids source strat ce level c g = Ok (c', g') ->
    c_log c' = c_log c /\ c_instances c' = c_instances c /\ c_repeat_sets c' = c_repeat_sets c /\
    exists acts pats, c_activities c' = Some acts /\ c_patterns c' = Some pats.
  Proof. unfold discover_from_patterns. intros H. undo. injection H as <- <-. cbn. eauto 10. Qed.

  Lemma in_traces_ordered narrow c c' : discover_in_traces ce accept narrow c = Ok c' ->
    exists l acts hs found, c_log c = Some l /\ c_activities c = Some acts /\ hashes_traces ce l = Ok hs /\
      extract_log nd_name acts narrow accept hs = Some found /\ c' = with_trace_activities c found /\
      Forall2 (fun a t => ordered 0 (length (t_events t)) a) found (l_traces l).
  Proof.
    unfold discover_in_traces. intros H.
    apply bind_ok in H. destruct H as [l [E1 H]]. apply bind_ok in H. destruct H as [acts [E2 H]].
    apply bind_ok in H. destruct H as [hs [E3 H]]. apply bind_ok in H. destruct H as [found [E4 H]]. injection H as <-.
    destruct (c_log c) as [l'|] eqn:El; [|discriminate]. injection E1 as ->.
    destruct (c_activities c) as [acts'|] eqn:Ea; [|discriminate]. injection E2 as ->.
    destruct (@log_total_proof _ nd_name acts narrow accept hs) as [r [Er Hr]]. rewrite Er in E4. injection E4 as ->.
    exists l, acts, hs, found. split; [reflexivity|]. split; [reflexivity|]. split; [exact E3|]. split; [exact Er|]. split; [reflexivity|].
    pose proof (hashes_lengths _ _ E3) as Hl.
    clear -Hl Hr. remember (l_traces l) as ts eqn:Et. clear Et. revert ts Hl.
    induction Hr as [|h f hs fs Hh _ IH]; intros ts Hl; inversion Hl as [|t ? ts' ? Hth Hrest]; subst; constructor.
    - destruct (@extraction_ordered_proof _ nd_name acts narrow accept h) as [f' [Ef Ho]]. rewrite Ef in Hh. injection Hh as ->. rewrite <- Hth. exact Ho.
    - apply IH. exact Hrest.
  Qed.

  Hypothesis Hce : extractor_ends ce.
  Lemma hashes_end l : hashes_traces ce l <> Err Diverges.
  Proof.
    apply mapM_ends. intros t _. apply bind_ends; [|discriminate]. apply mapM_ends. intros e _. apply Hce.
  Qed.
  Lemma set_events_end hs r : extract_set_events hs r <> Err Diverges.
  Proof. unfold extract_set_events. destruct (nth_error _ _); discriminate. Qed.
  Lemma name_ends l r : activity_name ce l r <> Err Diverges.
  Proof.
    unfold activity_name. destruct (nth_error _ _); [|discriminate]. apply bind_ends; [|discriminate].
    apply mapM_ends. intros e _. apply Hce.
  Qed.
  Lemma nodes_end level l hs : forall rs i, activity_nodes ce level l hs i rs <> Err Diverges.
  Proof.
    induction rs as [|r rs IH]; intros i; cbn; [discriminate|]. apply bind_ends.
    - unfold activity_node. apply bind_ends; [apply set_events_end|]. intros. apply bind_ends; [apply name_ends|discriminate].
    - intros. apply bind_ends; [apply IH|discriminate].
  Qed.
  Lemma from_patterns_end level c g : discover_from_patterns uuids source strat ce level c g <> Err Diverges.
  Proof.
    unfold discover_from_patterns. apply bind_ends; [destruct strat; [discriminate|apply bind_ends; [apply entry_ends|discriminate]]|].
    intros temp _. apply bind_ends.
    { apply bind_ends; [apply entry_ends|]. intros. apply bind_ends; [apply hashes_end|discriminate]. }
    intros t1 _. apply bind_ends.
    { apply bind_ends; [apply entry_ends|]. intros. apply bind_ends; [apply entry_ends|]. intros. apply bind_ends; [apply hashes_end|discriminate]. }
    intros t2 _. apply bind_ends.
    { apply bind_ends; [apply entry_ends|]. intros. apply bind_ends; [apply entry_ends|]. intros.
      apply bind_ends; [|discriminate]. apply bind_ends; [apply hashes_end|]. intros. apply bind_ends; [apply nodes_end|discriminate]. }
    intros t3 _. apply bind_ends; [apply entry_ends|]. intros. apply bind_ends; [apply entry_ends|]. discriminate.
  Qed.
  Lemma in_traces_end narrow c : discover_in_traces ce accept narrow c <> Err Diverges.
  Proof.
    unfold discover_in_traces. apply bind_ends; [apply entry_ends|]. intros l _. apply bind_ends; [apply entry_ends|]. intros acts _.
    apply bind_ends; [apply hashes_end|]. intros hs _.
    destruct (@log_total_proof _ nd_name acts narrow accept hs) as [r [-> _]]. discriminate.
  Qed.
End High.

(** * Rewriting a log *)

Lemma index_range_ends {A} (l : list A) a b : index_range l a b <> Err Diverges.
Proof. apply mapM_ends. intros i _. destruct (nth_error l i); discriminate. Qed.
Lemma new_trace_ends uh st a t : new_trace_from_activities uh st a t <> Err Diverges.
Proof.
  apply bind_ends; [|discriminate]. apply mapM_ends. intros [p q|x] _; cbn.
  - destruct st; try discriminate. apply index_range_ends.
  - apply bind_ends; [|discriminate]. apply bind_ends; [|discriminate].
    apply mapM_ends. intros e _. unfold get_underlying_activities. destruct (eget e _) as [[]|]; discriminate.
Qed.
Lemma new_log_ends l a uh st : create_new_log_from_activities l a uh st <> Err Diverges.
Proof. apply bind_ends; [|discriminate]. apply mapM_ends. intros. apply new_trace_ends. Qed.

Lemma new_log_size uh (l l' : eventlog) acts :
  Forall2 (fun a t => ordered 0 (length (t_events t)) a) acts (l_traces l) ->
  create_new_log_from_activities l acts uh InsertAllEvents = Ok l' ->
  size_of l' + list_sum (map (fun a => list_sum (map (@in_length ndata) a)) acts) = size_of l + list_sum (map (@length _) acts) /\
  length (l_traces l') = length (l_traces l).
Proof.
  unfold create_new_log_from_activities, size_of. intros Ho H. apply bind_ok in H. destruct H as [ts [H E]]. injection E as <-.
  cbn [l_traces log_of_traces]. remember (l_traces l) as trs eqn:Et. clear Et l.
  revert ts H. induction Ho as [|a t acts trs Ha Ho IH]; cbn; intros ts H.
  - injection H as <-. auto.
  - apply bind_ok in H. destruct H as [t' [Ht H]]. apply bind_ok in H. destruct H as [ts' [Hts E]]. injection E as <-.
    cbn. destruct (IH _ Hts) as [I1 I2]. cbn [fst snd] in Ht. pose proof (length_proof _ _ _ _ Ha Ht). unfold list_sum in *. cbn in *. lia.
Qed.
Ltac sums_in H := unfold list_sum in *; cbn [fold_right map length] in *; lia.
Ltac sums := unfold list_sum in *; cbn [fold_right map] in *; lia.
Lemma lengths_sum : forall acts (ts : list trace), Forall2 (fun a t => @ordered ndata 0 (length (t_events t)) a) acts ts ->
  list_sum (map (@length _) acts) <= list_sum (map (fun a => list_sum (map (@in_length ndata) a)) acts) /\
  (list_sum (map (@length _) acts) = list_sum (map (fun a => list_sum (map (@in_length ndata) a)) acts) ->
   forall a x, In a acts -> In x a -> in_length x = 1).
Proof.
  assert (One : forall a lo hi, @ordered ndata lo hi a -> length a <= list_sum (map (@in_length ndata) a) /\
     (length a = list_sum (map (@in_length ndata) a) -> forall x, In x a -> in_length x = 1)).
  { induction a as [|x a IH]; cbn [map length ordered]; intros lo hi H; [split; [sums|intros _ x []]|].
    destruct H as [H1 [H2 H3]]. destruct (IH _ _ H3) as [I1 I2]. split; [sums|].
    intros E y [<-|Hy]; [sums|apply I2; [sums|exact Hy]]. }
  intros acts ts H. induction H as [|a t acts ts Ha H IH]; cbn [map]; [split; [sums|intros _ a x []]|].
  destruct IH as [I1 I2]. destruct (One _ _ _ Ha) as [O1 O2]. split; [sums|].
  intros E b x [<-|Hb] Hx; [apply O2; [sums|exact Hx]|eapply I2; [sums|exact Hb|exact Hx]].
Qed.

Lemma context_events_ok c l : c_log c = Some l -> context_events c = Ok (size_of l).
Proof.
  intros E. unfold context_events. rewrite E. cbn. unfold calculate_events_count, size_of. rewrite map_map. reflexivity.
Qed.
Lemma same_underlying_refl l : same_underlying l l.
Proof. split; [|reflexivity]. induction (l_traces l); constructor; auto. Qed.
Lemma same_underlying_trans a b c : same_underlying a b -> same_underlying b c -> same_underlying a c.
Proof.
  intros [H1 H2] [H3 H4]. split; [|congruence]. clear H2 H4. revert H3. generalize (l_traces c).
  induction H1 as [|x y xs ys Hxy H IH]; intros zs H3; inversion H3; subst; constructor; [congruence|]. apply IH. assumption.
Qed.

Section Until.
  Variable uuids : nat -> pystr.
  Variable source : list (list N) -> list (list sub_array).
  Variables (ce : event -> result pystr) (strat : discovery) (accept : inst -> bool) (narrow uh increase : bool).
  Variables (before after : option (context -> globals -> result (context * globals))).
  Hypotheses (Hce : extractor_ends ce) (Eb : ends before) (Ea : ends after) (Kb : keeps before) (Ka : keeps after).
  Notation loop := (until_loop uuids source ce strat accept narrow uh increase before after).

  Lemma hook_ends h c g : ends h -> hook h c g <> Err Diverges.
  Proof. intros H. destruct h as [f|]; [apply H; reflexivity|discriminate]. Qed.
  Lemma hook_keeps h c g c' g' : keeps h -> hook h c g = Ok (c', g') -> c_log c' = c_log c /\ c_instances c' = c_instances c.
  Proof. intros K H. destruct h as [f|]; [eapply K; [reflexivity|exact H]|]. cbn in H. injection H as <- <-. auto. Qed.

  (** One round: what is known after it. *)
  Lemma round fuel level c g l : c_log c = Some l -> forall R : result (context * globals) -> Prop,
    (forall e, e <> Diverges -> R (Err e)) ->
    (forall prev level0 cx g1 nodes hs found,
       cleared l prev -> discover_from_patterns uuids source strat ce level0 prev g = Ok (cx, g1) ->
       c_activities cx = Some nodes -> hashes_traces ce l = Ok hs -> extract_log nd_name nodes true accept hs = Some found ->
       list_sum (map (@length _) found) = 0 -> R (Ok (prev, g1))) ->
    (forall c3 g3 l3 found, c_log c3 = Some l3 -> c_instances c3 = Some found -> list_sum (map (@length _) found) <> 0 ->
       same_underlying l l3 -> length (l_traces l3) = length (l_traces l) -> size_of l3 = size_of l ->
       (forall a x, In a found -> In x a -> in_length x = 1) -> R (Ok (c3, g3))) ->
    (forall c3 g3 l3, c_log c3 = Some l3 -> same_underlying l l3 -> length (l_traces l3) = length (l_traces l) -> size_of l3 < size_of l ->
       R (loop fuel (size_of l3) (if increase then level + 1 else level)%Z c3 g3)) ->
    R (loop (S fuel) (size_of l) level c g).
  Proof.
    intros El R R0 R1 R2 R3. cbn [until_loop]. unfold clear_activities at 1. rewrite El. cbn [entry bind].
    set (prev := mkContext _ _ _ _ _).
    assert (Hprev : cleared l prev) by (repeat split).
    unfold instances_from_patterns.
    destruct (discover_from_patterns uuids source strat ce level prev g) as [[cx g1]|e] eqn:Ed; cbn [bind fst snd].
    2:{ apply R0. intros ->. exact (from_patterns_end uuids source ce strat Hce level prev g Ed). }
    destruct (from_patterns_keeps uuids source ce strat _ _ _ _ _ Ed) as [D1 [D2 [D3 [nodes [pats [D4 D5]]]]]].
    destruct (discover_in_traces ce accept true cx) as [c1|e] eqn:Ei; cbn [bind fst snd].
    2:{ apply R0. intros ->. exact (in_traces_end ce accept Hce true cx Ei). }
    destruct (in_traces_ordered ce accept _ _ _ Ei) as [l0 [acts [hs [found [I1 [I2 [I3 [I4 [I5 I6]]]]]]]]].
    rewrite D1 in I1. cbn in I1. injection I1 as <-. rewrite D4 in I2. injection I2 as <-. subst c1.
    cbn [c_instances with_trace_activities entry bind].
    destruct (list_sum (map (@length _) found) =? 0) eqn:Es.
    { eapply R1; try eassumption. apply Nat.eqb_eq. exact Es. }
    apply Nat.eqb_neq in Es.
    destruct (hook before _ g1) as [[c1 g2]|e] eqn:Eh; cbn [bind fst snd].
    2:{ apply R0. intros ->. exact (hook_ends _ _ _ Eb Eh). }
    destruct (hook_keeps _ _ _ _ _ Kb Eh) as [H1 H2]. cbn in H1, H2. rewrite D1 in H1. cbn in H1.
    unfold create_log. rewrite H1, H2. cbn [entry bind].
    destruct (create_new_log_from_activities l found uh InsertAllEvents) as [l2|e] eqn:Ec; cbn [bind].
    2:{ apply R0. intros ->. exact (new_log_ends _ _ _ _ Ec). }
    destruct (hook after _ g2) as [[c3 g3]|e] eqn:Eh2; cbn [bind fst snd].
    2:{ apply R0. intros ->. exact (hook_ends _ _ _ Ea Eh2). }
    destruct (hook_keeps _ _ _ _ _ Ka Eh2) as [H3 H4]. cbn in H3, H4. rewrite H2 in H4.
    rewrite (context_events_ok _ _ H3). cbn [bind].
    destruct (new_log_size _ _ _ _ I6 Ec) as [N1 N2]. destruct (lengths_sum _ _ I6) as [L1 L2].
    assert (Hu : same_underlying l l2) by (exact (expand_back_log_proof _ _ _ _ I6 Ec)).
    destruct (size_of l2 =? size_of l) eqn:Ez.
    - apply Nat.eqb_eq in Ez. eapply R2; try eassumption. apply L2. lia.
    - apply Nat.eqb_neq in Ez. apply R3; try assumption. lia.
  Qed.

  Lemma loop_ends : forall f1 f2 level c g l, c_log c = Some l -> size_of l < f1 -> size_of l < f2 ->
    loop f1 (size_of l) level c g = loop f2 (size_of l) level c g /\ loop f1 (size_of l) level c g <> Err Diverges.
  Proof.
    induction f1 as [|f1 IH]; intros f2 level c g l El H1 H2; [lia|]. destruct f2 as [|f2]; [lia|]. split.
    - cbn [until_loop].
      pose (step := fun (k : nat) => loop (S k) (size_of l) level c g).
      change (step f1 = step f2). unfold step.
      cbn [until_loop]. unfold clear_activities at 1 2. rewrite El. cbn [entry bind].
      set (prev := mkContext _ _ _ _ _).
      unfold instances_from_patterns.
      destruct (discover_from_patterns uuids source strat ce level prev g) as [[cx g1]|e] eqn:Ed; cbn [bind fst snd]; [|reflexivity].
      destruct (from_patterns_keeps uuids source ce strat _ _ _ _ _ Ed) as [D1 [D2 [D3 [nodes [pats [D4 D5]]]]]].
      destruct (discover_in_traces ce accept true cx) as [c1|e] eqn:Ei; cbn [bind fst snd]; [|reflexivity].
      destruct (in_traces_ordered ce accept _ _ _ Ei) as [l0 [acts [hs [found [I1 [I2 [I3 [I4 [I5 I6]]]]]]]]].
      rewrite D1 in I1. cbn in I1. injection I1 as <-. subst c1.
      cbn [c_instances with_trace_activities entry bind].
      destruct (list_sum (map (@length _) found) =? 0) eqn:Es; [reflexivity|].
      destruct (hook before _ g1) as [[c1 g2]|e] eqn:Eh; cbn [bind fst snd]; [|reflexivity].
      destruct (hook_keeps _ _ _ _ _ Kb Eh) as [K1 K2]. cbn in K1, K2. rewrite D1 in K1. cbn in K1.
      unfold create_log. rewrite K1, K2. cbn [entry bind].
      destruct (create_new_log_from_activities l found uh InsertAllEvents) as [l2|e] eqn:Ec; cbn [bind]; [|reflexivity].
      destruct (hook after _ g2) as [[c3 g3]|e] eqn:Eh2; cbn [bind fst snd]; [|reflexivity].
      destruct (hook_keeps _ _ _ _ _ Ka Eh2) as [H3 H4]. cbn in H3.
      rewrite (context_events_ok _ _ H3). cbn [bind].
      destruct (new_log_size _ _ _ _ I6 Ec) as [N1 N2]. destruct (lengths_sum _ _ I6) as [L1 L2].
      destruct (size_of l2 =? size_of l) eqn:Ez; [reflexivity|]. apply Nat.eqb_neq in Ez.
      apply IH; [exact H3|lia|lia].
    - apply (round f1 level c g l El (fun r => r <> Err Diverges)).
      + intros e He E. injection E as ->. apply He. reflexivity.
      + discriminate.
      + discriminate.
      + intros c3 g3 l3 E3 _ _ Hlt. apply (IH (S (size_of l3))); [exact E3|lia|lia].
  Qed.

  Lemma loop_result : forall fuel level c g l c' g', c_log c = Some l -> loop fuel (size_of l) level c g = Ok (c', g') ->
    exists l', c_log c' = Some l' /\ same_underlying l l' /\ length (l_traces l') = length (l_traces l) /\ size_of l' <= size_of l /\
      ((cleared l' c' /\ exists level0 g0 g1 cx nodes hs found,
          discover_from_patterns uuids source strat ce level0 c' g0 = Ok (cx, g1) /\ c_activities cx = Some nodes /\
          hashes_traces ce l' = Ok hs /\ extract_log nd_name nodes true accept hs = Some found /\ (forall f, In f found -> f = [])) \/
       (exists found, c_instances c' = Some found /\ (exists f, In f found /\ f <> []) /\ forall a x, In a found -> In x a -> in_length x = 1)).
  Proof.
    induction fuel as [|fuel IH]; intros level c g l c' g' El; [discriminate|].
    match goal with |- _ -> ?P => apply (round fuel level c g l El (fun r => r = Ok (c', g') -> P)) end.
    - discriminate.
    - intros prev level0 cx g1 nodes hs found Hp Hd Hn Hh Hx Hs E. injection E as -> ->.
      exists l. split; [apply Hp|]. split; [apply same_underlying_refl|]. split; [reflexivity|]. split; [lia|].
      left. split; [exact Hp|]. exists level0, g, g', cx, nodes, hs, found. repeat (split; [assumption|]).
      intros f Hf. destruct f; [reflexivity|]. exfalso. clear -Hs Hf.
      induction found as [|a found IHf]; [destruct Hf|]. destruct Hf as [->|Hf]; [sums_in Hs|]. apply IHf; [sums_in Hs|exact Hf].
    - intros c3 g3 l3 found E3 Ei Hs Hu Hl Hz Hone E. injection E as -> ->.
      exists l3. split; [exact E3|]. split; [exact Hu|]. split; [exact Hl|]. split; [lia|].
      right. exists found. split; [exact Ei|]. split; [|exact Hone].
      clear -Hs. induction found as [|a found IHf]; [sums_in Hs|]. destruct a as [|x a].
      + destruct (IHf Hs) as [f [Hf Hn]]. exists f. split; [right; exact Hf|exact Hn].
      + exists (x :: a). split; [left; reflexivity|discriminate].
    - intros c3 g3 l3 E3 Hu Hl Hlt E. destruct (IH _ _ _ _ _ _ E3 E) as [l' [R1 [R2 [R3 [R4 R5]]]]].
      exists l'. split; [exact R1|]. split; [eapply same_underlying_trans; eassumption|]. split; [lia|]. split; [lia|]. exact R5.
  Qed.
End Until.
