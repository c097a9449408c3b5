(** Proofs about the uuids made while activities are searched (C52). *)
From Verif Require Import Py PyFacts XesModel LogModel HashModel PatternModel TreeModel ActModel ActLogModel SplitModel HighModel HighProofs.

Lemma merge_traces_ext {E} (mk : pystr -> E) log u v : forall i, (forall k, i <= k < i + length log -> v k = u k) ->
  merge_traces mk log v i = merge_traces mk log u i.
Proof.
  induction log as [|t log IH]; intros i H; [reflexivity|]. cbn [merge_traces]. rewrite (H i) by (cbn; lia). rewrite IH; [reflexivity|].
  intros k Hk. apply H. cbn. lia.
Qed.

Section Fresh.
  Variables (source : list (list N) -> list (list sub_array)) (strat : discovery) (minimum : nat) (mode : adjusting)
    (accept : inst -> bool) (narrow : bool).

  (** The result is the same for other uuids if they agree on those counted between [g] and [g']. *)
  Definition uses {A} (f : (nat -> pystr) -> result (A * globals)) (g : globals) : Prop :=
    forall u c' g', f u = Ok (c', g') -> g_uuid g <= g_uuid g' /\
      forall v, (forall i, g_uuid g <= i < g_uuid g' -> v i = u i) -> f v = Ok (c', g').

  Lemma tree_uuid ce level l rs g F g' : activities_tree ce level l rs g = Ok (F, g') -> g_uuid g' = g_uuid g.
  Proof. unfold activities_tree. intros H. apply bind_ok in H. destruct H as [hs [_ H]]. apply bind_ok in H. destruct H as [ns [_ H]]. injection H as <- <-. reflexivity. Qed.
  Lemma discover_uuid ce level c g c' g' : discover_activities ce level c g = Ok (c', g') -> g_uuid g' = g_uuid g.
  Proof.
    unfold discover_activities. intros H. apply bind_ok in H. destruct H as [l [_ H]]. apply bind_ok in H. destruct H as [rs [_ H]].
    apply bind_ok in H. destruct H as [[F gf] [H1 H]]. injection H as <- <-. exact (tree_uuid _ _ _ _ _ _ _ H1).
  Qed.
  Lemma merged_ext l g u v : (forall i, g_uuid g <= i < g_uuid g + length (l_traces l) -> v i = u i) ->
    merged_log v l g = merged_log u l g.
  Proof.
    intros H. unfold merged_log, merge_all_traces_in_one_log. do 4 f_equal. rewrite (merge_traces_ext _ _ (fun i => u (g_uuid g + i)) (fun i => v (g_uuid g + i)) 0); [reflexivity|].
    intros k Hk. rewrite map_length in Hk. apply H. lia.
  Qed.
  Lemma from_patterns_uses ce level c g : uses (fun u => discover_from_patterns u source strat ce level c g) g.
  Proof.
    intros u c' g' H. cbv beta in *. unfold discover_from_patterns in H. apply bind_ok in H. destruct H as [temp [H0 H]].
    assert (E : g_uuid g' = g_uuid (snd temp)).
    { apply bind_ok in H. destruct H as [t1 [_ H]]. apply bind_ok in H. destruct H as [t2 [_ H]]. apply bind_ok in H. destruct H as [[t3 g3] [H3 H]].
      apply bind_ok in H. destruct H as [F [_ H]]. apply bind_ok in H. destruct H as [ps [_ H]]. injection H as <- <-. exact (discover_uuid _ _ _ _ _ _ H3). }
    destruct strat.
    - injection H0 as <-. cbn [snd] in E. split; [lia|]. intros v _. exact H.
    - apply bind_ok in H0. destruct H0 as [l [Hl H0]]. cbv zeta in H0. injection H0 as <-. cbn [snd] in E.
      assert (E2 : g_uuid g' = g_uuid g + length (l_traces l)) by exact E. clear E. split; [lia|].
      intros v Hv. unfold discover_from_patterns. rewrite Hl. cbn [bind]. cbv zeta. rewrite (merged_ext l g u v) by (intros i Hi; apply Hv; lia). exact H.
  Qed.
  Lemma adjust_uses ce level c g : uses (fun u => adjust u source ce level strat minimum mode accept narrow c g) g.
  Proof.
    intros u c' g' H. cbv beta in *. unfold adjust in *. apply bind_ok in H. destruct H as [c1 [H1 H]]. apply bind_ok in H. destruct H as [l [H2 H]].
    apply bind_ok in H. destruct H as [is [H3 H]]. cbv zeta in H. apply bind_ok in H. destruct H as [[co go] [H4 H]].
    destruct (from_patterns_uses _ _ _ _ _ _ _ H4) as [L U].
    assert (E : g' = go).
    { apply bind_ok in H. destruct H as [F [_ H]]. apply bind_ok in H. destruct H as [as_ [_ H]]. apply bind_ok in H. destruct H as [fd [_ H]]. injection H as <- <-. reflexivity. }
    subst go. split; [exact L|]. intros v Hv. rewrite H1. cbn [bind]. rewrite H2. cbn [bind]. rewrite H3. cbn [bind]. cbv zeta. rewrite (U v Hv). cbn [bind]. exact H.
  Qed.
  Lemma levels_uses extractors : forall level c g, uses (fun u => several_levels u source strat minimum mode accept narrow extractors level c g) g.
  Proof.
    induction extractors as [|ce rest IH]; intros level c g u c' g' H; cbn [several_levels] in *.
    - injection H as <- <-. split; [lia|]. reflexivity.
    - apply bind_ok in H. destruct H as [[c1 g1] [H1 H]]. cbn [fst snd] in H. destruct (adjust_uses _ _ _ _ _ _ _ H1) as [L1 U1]. destruct (IH _ _ _ _ _ _ H) as [L2 U2].
      split; [lia|]. intros v Hv. rewrite (U1 v) by (intros i Hi; apply Hv; lia). cbn [bind fst snd]. apply U2. intros i Hi. apply Hv. lia.
  Qed.
  Lemma levels_app u pre post : forall level c g,
    several_levels u source strat minimum mode accept narrow (pre ++ post) level c g =
    bind (several_levels u source strat minimum mode accept narrow pre level c g) (fun r =>
    several_levels u source strat minimum mode accept narrow post (level + Z.of_nat (length pre)) (fst r) (snd r)).
  Proof.
    induction pre as [|ce pre IH]; intros level c g; cbn [app several_levels].
    - cbn. f_equal. lia.
    - destruct (adjust _ _ _ _ _ _ _ _ _ _ _) as [[c1 g1]|] eqn:E; [|reflexivity]. cbn [bind fst snd]. rewrite IH.
      replace (level + 1 + Z.of_nat (length pre))%Z with (level + Z.of_nat (length (ce :: pre)))%Z by (cbn [length]; lia). reflexivity.
  Qed.
End Fresh.
