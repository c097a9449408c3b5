(** Proofs about the heuristic miner: consequences. *)
From Coq Require Import Permutation Sorted QArith Lqa.
From Verif Require Import Py PyFacts InfoModel InfoSpec InfoProofs HashModel EqProofs ReplayModel ReplaySpec ReplayProofs HMutProofs RInfoModel RInfoSpec RInfoProofs AlphaModel AlphaSpec AlphaProofs AlphaProofs2 AlphaProofs3 AlphaProofs4 AlphaProofs6 PlusProofs HeurModel HeurSpec HeurProofs1 HeurProofs2 HeurProofs3 HeurProofs4.
Open Scope nat_scope.

(** ** Any number of steps *)
Definition settled {A} (f : nat -> result A) : Prop := forall fuel, f fuel = Err Diverges \/ forall fuel', fuel <= fuel' -> f fuel' = f fuel.
Lemma settled_const {A} (r : result A) : settled (fun _ => r).
Proof. intros fuel. right. reflexivity. Qed.
Lemma settled_bind {A B} (f : nat -> result A) (g : A -> nat -> result B) : settled f -> (forall a, settled (g a)) -> settled (fun fuel => bind (f fuel) (fun a => g a fuel)).
Proof.
  intros F G fuel. destruct (F fuel) as [E|E]; [left; rewrite E; reflexivity|]. destruct (f fuel) as [a|e] eqn:Ef.
  - destruct (G a fuel) as [E'|E']; [left; exact E'|]. right. intros fuel' L. rewrite (E fuel' L). cbn [bind]. apply E', L.
  - right. intros fuel' L. rewrite (E fuel' L). reflexivity.
Qed.
Lemma settled_maximize {T} (eqb : T -> T -> bool) merger ord k vec : settled (fun fuel => maximize eqb merger ord fuel k vec).
Proof.
  intros fuel. destruct (maximize eqb merger ord fuel k vec) as [r|e] eqn:E; [right|left; apply maximize_err in E; congruence]. intros fuel' L. replace fuel' with (fuel + (fuel' - fuel)) by lia. apply maximize_more, E.
Qed.
Lemma settled_class ords ids dep rel classes nn i c : settled (fun fuel => add_class ords fuel ids dep rel classes nn i c).
Proof.
  unfold add_class. destruct (filter (dep c) classes); [apply settled_const|].
  apply (settled_bind (fun fuel => maximize group_eqb (group_merger (rel c)) (ords (S i)) fuel 100 (and_pairs (rel c) (p :: l)))
    (fun parallel_groups _ => let '(nn, post_place_id) := add_place nn (str "post_" ++ c) in
        bind (class_id ids c) (fun t =>
        bind (connect_transition_to_place nn t post_place_id) (fun nn =>
        bind (loopM (add_group ids c post_place_id) (ords (S i) 10 _ parallel_groups) nn) (fun nn =>
        loopM (fun nn follower => bind (class_id ids follower) (fun t => connect_place_to_transition nn post_place_id t))
          (filter (fun f => negb (str_mem f (concat parallel_groups))) (p :: l)) nn))))); [apply settled_maximize|]. intros r. apply settled_const.
Qed.
Lemma settled_classes ords ids dep rel classes todo : forall i nn, settled (fun fuel => add_classes ords fuel ids dep rel classes todo i nn).
Proof.
  induction todo as [|c todo IH]; intros i nn; cbn [add_classes]; [apply settled_const|].
  apply (settled_bind (fun fuel => add_class ords fuel ids dep rel classes nn i c) (fun nn fuel => add_classes ords fuel ids dep rel classes todo (S i) nn)); [apply settled_class|]. intros a. apply IH.
Qed.
Lemma settled_heur ords log p next : settled (fun fuel => discover_petri_net_heuristic ords fuel log p next).
Proof.
  unfold discover_petri_net_heuristic. cbn zeta. apply (settled_bind (fun _ => calculate_triangle_relations log)
    (fun triangles fuel => bind (construct_heuristic_petri_net ords fuel (r_create_from (ords 0) log false None) p next) (fun nn => add_length_two_loops ords (r_create_from (ords 0) log false None) p triangles nn))); [apply settled_const|].
  intros tri. apply (settled_bind (fun fuel => construct_heuristic_petri_net ords fuel (r_create_from (ords 0) log false None) p next) (fun nn _ => add_length_two_loops ords (r_create_from (ords 0) log false None) p tri nn)); [|intros nn; apply settled_const].
  unfold construct_heuristic_petri_net. cbn zeta. destruct (class_transitions _ _) as [nn ids]. apply settled_classes.
Qed.
Lemma heur_result ords log p next fuel r : (forall i, any_order (ords i)) -> clear_names log -> (forall t, In t log -> 2 <= length t) ->
  discover_petri_net_heuristic ords fuel log p next = r -> r = Err Diverges \/ exists net next' blocks loud, r = Ok (net, next') /\ heur_net log p blocks loud net.
Proof.
  intros O C L E. destruct (heur_proof ords log p next O C L) as (fuel0 & net & next' & blocks & loud & H & HN). destruct (settled_heur ords log p next fuel) as [D|D]; [left; congruence|]. right.
  exists net, next', blocks, loud. split; [|exact HN]. rewrite <- E, <- (D (Nat.max fuel fuel0)) by lia. apply H. lia.
Qed.

(** ** The relations *)
Lemma times_nonneg n : (0 <= num n)%Q.
Proof. unfold num. change 0%Q with (inject_Z 0). rewrite <- Zle_Qle. lia. Qed.
Lemma depends_one_way log p a b : (0 <= hp_dependency p)%Q -> depends log p a b -> depends log p b a -> a = b.
Proof.
  intros H [(_ & _ & _ & H1) _] [(_ & _ & _ & H2) _]. destruct (str_eq_dec a b) as [|Hne]; [assumption|]. exfalso.
  unfold dependency in H1, H2. rewrite str_eqb_no in H1 by exact Hne. rewrite str_eqb_no in H2 by congruence.
  pose proof (times_nonneg (times log a b)) as A. pose proof (times_nonneg (times log b a)) as B. set (x := num (times log a b)) in *. set (y := num (times log b a)) in *.
  assert (P1 : (0 < x + y + 1)%Q) by lra. assert (P2 : (0 < y + x + 1)%Q) by lra.
  assert (Q1 : (0 < (x - y) / (x + y + 1))%Q) by lra. assert (Q2 : (0 < (y - x) / (y + x + 1))%Q) by lra.
  assert (K : forall u v, (0 < v)%Q -> (0 < u / v)%Q -> (0 < u)%Q).
  { intros u v Hv Huv. assert (E : (u == u / v * v)%Q) by (field; lra). rewrite E. apply Qmult_lt_0_compat; assumption. }
  apply K in Q1; [|exact P1]. apply K in Q2; [|exact P2]. lra.
Qed.
Lemma best_exists (f : pystr -> Q) (P : pystr -> Prop) (l : list pystr) : (forall c, In c l <-> P c) -> (exists c, P c) -> exists b, P b /\ forall c, P c -> (f c <= f b)%Q.
Proof.
  intros Hl [c0 H0]. assert (K : forall l, l <> [] -> exists b, In b l /\ forall c, In c l -> (f c <= f b)%Q).
  { clear. induction l as [|x l IH]; [congruence|]. intros _. destruct l as [|y l]; [exists x; split; [left; reflexivity|intros c [<-|[]]; apply Qle_refl]|].
    destruct IH as (b & Hb & H); [discriminate|]. destruct (Qlt_le_dec (f b) (f x)) as [D|D].
    - exists x. split; [left; reflexivity|]. intros c [<-|Hc]; [apply Qle_refl|]. apply H in Hc. lra.
    - exists b. split; [right; exact Hb|]. intros c [<-|Hc]; [exact D|apply H, Hc]. }
  destruct (K l) as (b & Hb & H); [intros E; apply Hl in H0; rewrite E in H0; destruct H0|]. exists b. split; [apply Hl, Hb|]. intros c Hc. apply H, Hl, Hc.
Qed.
Lemma follower_kept log p a : (0 <= hp_dependency p)%Q -> (0 <= hp_best p)%Q -> (exists b, candidate log p a b) -> exists b, depends log p a b.
Proof.
  intros H1 H2 H. assert (D : forall b, {candidate log p a b} + {~ candidate log p a b}).
  { intros b. unfold candidate. destruct (in_dec str_eq_dec a (occurrences log None)) as [A|A]; [|right; intros (X & _); apply A, class_of_In, X]. destruct (in_dec str_eq_dec b (occurrences log None)) as [B|B]; [|right; intros (_ & X & _); apply B, class_of_In, X].
    destruct (le_lt_dec (hp_positive p) (times log a b)) as [L|L]; [|right; intros (_ & _ & X & _); lia]. destruct (Qlt_le_dec (hp_dependency p) (dependency log a b)) as [Q|Q]; [left; rewrite !class_of_In; auto|right; intros (_ & _ & _ & X); lra]. }
  destruct (best_exists (dependency log a) (candidate log p a) (filter (fun b => if D b then true else false) (occurrences log None))) as (b & Hb & Hmax).
  - intros c. rewrite filter_In. destruct (D c) as [Dc|Dc]; [|intuition discriminate]. split; [auto|]. intros _. split; [apply class_of_In, Dc|reflexivity].
  - exact H.
  - exists b. split; [exact Hb|]. exists b. split; [exact Hb|]. split; [exact Hmax|]. destruct Hb as (_ & _ & _ & Hb). assert ((0 <= dependency log a b * hp_best p)%Q) by (apply Qmult_le_0_compat; lra). lra.
Qed.

(** ** Replay *)
Section Replay.
  Variables (log : list (list pystr)) (p : hparams) (blocks : list hblock) (loud : list ptrans) (net : pnet).
  Hypothesis H : heur_net log p blocks loud net.
  Let weight (place : N) : nat := if in_dec N.eq_dec place (map hb_post blocks) then S (length (n_places net)) else 1.
  Lemma heur_silent_ends : silent_ends net.
  Proof.
    apply (silent_sinks_proof weight). intros t Ht Hs. destruct (hn_trans _ _ _ _ _ H) as (loud' & silent & E & F & S).
    rewrite E, in_app_iff in Ht. destruct Ht as [Ht|Ht].
    - destruct (Forall2_back _ _ _ _ F Ht) as (u & Hu & _ & _ & X & _). rewrite (lo_loud _ _ _ _ (hn_loud _ _ _ _ _ H) u Hu) in X. congruence.
    - assert (X : In (view t) (flat_map hb_silent blocks)) by (rewrite <- S; apply in_map, Ht). apply in_flat_map in X. destruct X as (b & Hb & X). unfold hb_silent in X. apply in_map_iff in X. destruct X as (g & X & Hg).
      assert (X1 : ins t = [hb_post b]) by (unfold view in X; congruence). assert (X2 : outs t = map snd (hg_places g)) by (unfold view in X; congruence). unfold ins, outs in X1, X2. rewrite X1, X2.
      assert (NDp : NoDup (dkeys (flat_map hb_places blocks))). { rewrite <- (hn_places _ _ _ _ _ H). pose proof (hn_ids _ _ _ _ _ H) as B1. unfold all_ids in B1. apply NoDup_app_r in B1. eapply NoDup_app_l. exact B1. }
      assert (Kin : forall z, In z (map snd (hg_places g)) -> In z (map fst (hb_places b)) /\ z <> hb_post b).
      { intros z Hz. pose proof (places_once _ NDp b Hb) as ND. unfold hb_places in ND |- *. cbn [map fst] in ND |- *. inversion ND as [|? ? Hn _]; subst.
        assert (Y : In z (map fst (flat_map (fun g => map (fun cp => (snd cp, str "pre_" ++ fst cp)) (hg_places g)) (hb_groups b)))).
        { apply in_map_iff in Hz. destruct Hz as (cp & <- & Hcp). apply in_map_iff. exists (snd cp, str "pre_" ++ fst cp). split; [reflexivity|]. apply in_flat_map. exists g. split; [exact Hg|]. apply in_map_iff. exists cp. auto. }
        split; [right; exact Y|]. intros ->. contradiction. }
      assert (Kone : forall z, In z (map snd (hg_places g)) -> weight z = 1).
      { intros z Hz. unfold weight. destruct (in_dec N.eq_dec z (map hb_post blocks)) as [Y|]; [|reflexivity]. exfalso. apply in_map_iff in Y. destruct Y as (c & Ec & Hc). destruct (Kin z Hz) as [K1 K2].
        assert (b = c). { apply (places_apart _ NDp b c z Hb Hc K1). rewrite <- Ec. left. reflexivity. } subst c. congruence. }
      cbn [map list_sum fold_right]. unfold weight at 2. destruct (in_dec N.eq_dec (hb_post b) (map hb_post blocks)) as [_|Y]; [|exfalso; apply Y, in_map, Hb].
      assert (Ls : list_sum (map weight (map snd (hg_places g))) = length (hg_places g)).
      { clear - Kone. induction (hg_places g) as [|x l IH]; [reflexivity|]. cbn [map list_sum fold_right length] in *. rewrite Kone by (left; reflexivity). unfold list_sum in IH. rewrite IH; [reflexivity|]. intros z Hz. apply Kone. right. exact Hz. }
      rewrite Ls, Nat.add_0_r. apply Nat.lt_succ_r.
      assert (NDg : NoDup (map snd (hg_places g))).
      { pose proof (places_once _ NDp b Hb) as ND. unfold hb_places in ND. cbn [map fst] in ND. inversion ND as [|? ? _ ND']; subst. clear - ND' Hg. induction (hb_groups b) as [|h l IH]; [destruct Hg|]. apply pairs_apart in ND'. destruct ND' as (A & B & _). destruct Hg as [->|Hg]; [exact A|apply IH; assumption]. }
      rewrite <- (map_length snd (hg_places g)), <- (map_length fst (n_places net)). apply NoDup_incl_length; [exact NDg|]. intros z Hz. rewrite (hn_places _ _ _ _ _ H). destruct (Kin z Hz) as [K1 _].
      apply in_map_iff in K1. destruct K1 as (v & Ev & Hv). apply in_map_iff. exists v. split; [exact Ev|]. apply in_flat_map. exists b. auto.
  Qed.
  Hypothesis no_loops : forall a b, class_of log a -> class_of log b -> a <> b -> ~ alternate log p a b.
  Lemma heur_simple : simple_net net.
  Proof.
    intros t Ht. destruct (hn_trans _ _ _ _ _ H) as (loud' & silent & E & F & S). pose proof (hn_loud _ _ _ _ _ H) as HL. rewrite E, in_app_iff in Ht. destruct Ht as [Ht|Ht].
    - destruct (Forall2_back _ _ _ _ F Ht) as (u & Hu & _ & _ & _ & ps & _ & P2 & P3 & _). assert (ps = []).
      { destruct ps as [|v ps]; [reflexivity|]. exfalso. destruct (proj1 (P2 v) (or_introl eq_refl)) as (V1 & V2 & V3). apply (no_loops (tr_name u) (tr_name v)); [apply (lo_classes _ _ _ _ HL), in_map, Hu|apply (lo_classes _ _ _ _ HL), in_map, V1|congruence|exact V3]. }
      subst ps. cbn [flat_map] in P3. rewrite app_nil_r in P3. change (NoDup (ins t)). rewrite P3. apply (lo_ins _ _ _ _ HL u Hu).
    - assert (X : In (view t) (flat_map hb_silent blocks)) by (rewrite <- S; apply in_map, Ht). apply in_flat_map in X. destruct X as (b & Hb & X). unfold hb_silent in X. apply in_map_iff in X. destruct X as (g & X & Hg).
      assert (X1 : ins t = [hb_post b]) by (unfold view in X; congruence). unfold ins in X1. rewrite X1. constructor; [intros []|constructor].
  Qed.
  Lemma heur_replay init log' : proper init -> let marked := mkNet (n_places net) (n_trans net) (Some init) (n_final net) in
    exists n states, (forall fuel, n <= fuel -> replay_petri_net fuel log' marked = Ok (Some states)) /\ Forall2 (replay_right marked init) log' states.
  Proof.
    intros Hp marked. assert (S1 : simple_net marked) by exact heur_simple. assert (S2 : silent_ends marked) by exact heur_silent_ends.
    destruct (replay_ends_proof marked init log' S1 eq_refl Hp S2) as (n & states & E). exists n, states. split; [exact E|].
    destruct (replay_proof marked init n log' _ S1 eq_refl Hp (E n (le_n n))) as (states' & E' & FF). congruence.
  Qed.
End Replay.
