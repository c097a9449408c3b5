(** Proofs for C71: the parts which look for activities. *)
From Coq Require Import Permutation Sorting.Sorted.
From Verif Require Import Py PyFacts ReplayModel PatternModel PatternSpec PatternProofs HighProofs TreeModel TreeSpec TreeProofs ActModel ActSpec ActProofs RInfoSpec RActModel RActSpec RActProofs1 RActProofs2 RActProofs3 RActProofs4 RLogModel RLogSpec RLogProofs RPipeModel RPipeSpec.
From Verif Require SufModel SufSpec SufProofs4 SufProofs10 SufProofs11.

Lemma need_ok {B} (o : option B) b : need o = Ok b -> o = Some b.
Proof. unfold need, missing. destruct o; congruence. Qed.
Lemma need_some {B} (o : option B) : o <> None -> exists b, o = Some b /\ need o = Ok b.
Proof. destruct o as [b|]; [|congruence]. intros _. exists b. split; reflexivity. Qed.
Ltac inv_bind H := match type of H with bind ?x _ = Ok _ => let E := fresh "E" in destruct x eqn:E; cbn [bind] in H; [|discriminate H] end.
Ltac redo := repeat match goal with E : ?x = Ok _ |- context [bind ?x _] => rewrite E; cbn [bind] end.

Section Proofs.
  Context {A : Type}.
  Variables (name_of : A -> pystr) (fresh : pystr -> A) (sip : N -> N) (text_hash : pystr -> N) (ord : nat -> forall B : Type, list B -> list B).
  Variable compile : pystr -> option (pystr -> option (nat * nat)).
  Notation ctx := (@act_context A).
  Notation find := (find_patterns name_of sip text_hash ord compile).
  Notation disc := (discover name_of sip ord compile).
  Notation discovery' := (discovery name_of sip text_hash ord compile).
  Notation hashed := (hashed_log name_of text_hash compile).
  Notation finder := (run_finder sip ord).

  Notation good' := (good sip).
  Lemma good_bind {X Y} (P : X -> Prop) (Q : Y -> Prop) (x : result X) (f : X -> result Y) : good' P x -> (forall a, P a -> good' Q (f a)) -> good' Q (bind x f).
  Proof. destruct x as [a|e]; cbn; [intros H G; exact (G a H)|]. intros [[= ->] H] _. split; [reflexivity|exact H]. Qed.
  Lemma good_ok {X} (P : X -> Prop) (x : result X) a : x = Ok a -> P a -> good' P x.
  Proof. intros ->. exact id. Qed.
  Lemma good_impl {X} (P Q : X -> Prop) (x : result X) : (forall a, P a -> Q a) -> good' P x -> good' Q x.
  Proof. intros H. destruct x; cbn; [apply H|exact id]. Qed.
  Lemma good_total {X} (P : X -> Prop) (x : result X) : hash_total sip -> good' P x -> exists a, x = Ok a /\ P a.
  Proof. intros T. destruct x as [a|e]; cbn; [eauto|]. intros (_ & w & Hw). destruct (T w) as (h & Eh). rewrite Eh in Hw. discriminate. Qed.
  Lemma good_mapM {X Y} (f : X -> result Y) (P : X -> Y -> Prop) : (forall x, good' (P x) (f x)) -> forall l, good' (Forall2 P l) (mapM f l).
  Proof.
    intros H. induction l as [|x l IH]; [constructor|]. cbn [mapM]. eapply good_bind; [apply H|]. intros y Hy. eapply good_bind; [apply IH|]. intros ys Hys. constructor; assumption.
  Qed.
  Lemma good_loop {X S} (f : S -> X -> result S) : (forall s x, good' (fun _ => True) (f s x)) -> forall l s, good' (fun _ => True) (loopM f l s).
  Proof. intros H. induction l as [|x l IH]; intros s; [exact I|]. rewrite loopM_cons. eapply good_bind; [apply H|]. intros s' _. apply IH. Qed.
  Lemma hash_error w e : poly_hash sip w = Err e -> Err e = @rpanic N.
  Proof.
    unfold poly_hash. destruct (loopM (poly_step sip) w (1%N, 1%N)) as [st|e'] eqn:E; [discriminate|]. cbn [bind]. intros [= <-]. revert E. generalize (1%N, 1%N). induction w as [|x w IH]; intros st; [discriminate|]. rewrite loopM_cons.
    destruct (poly_step sip st x) as [st'|e2] eqn:Es; cbn [bind]; [apply IH|]. intros [= ->]. unfold poly_step in Es. destruct st as [h p]. destruct (u64_range <=? 1 + sip x)%N; [injection Es as <-; reflexivity|].
    destruct (u64_range <=? _)%N; [injection Es as <-; reflexivity|discriminate].
  Qed.
  Lemma hash_good w : good' (fun _ => True) (poly_hash sip w).
  Proof. destruct (poly_hash sip w) as [h|e] eqn:E; [exact I|]. pose proof (hash_error w e E) as He. split; [exact He|]. exists w. rewrite E. exact He. Qed.

  Section Total.
    Hypothesis O : any_order ord.

    Lemma extractor_ok cfg : regex_valid compile cfg -> exists ex, extractor compile cfg = Ok ex.
    Proof. unfold regex_valid, extractor. destruct (cf_regex cfg) as [r|]; [|eauto]. destruct (compile r); [cbn; eauto|congruence]. Qed.
    Lemma occurs_in (w a : list N) i : SufSpec.occurs w a i -> i + length a <= length w.
    Proof. intros (l & r & -> & <-). rewrite !app_length. lia. Qed.
    Lemma repeats_ok ty m hashes : exists l, SufModel.find_repeats ord ty m hashes = Ok l /\ within hashes (as_subs l).
    Proof.
      unfold within, as_subs. destruct m.
      - destruct (SufProofs10.merged_repeats_proof hashes ord O ty) as (k & acc & _ & E & Hl & H & _). exists acc. split; [exact E|].
        intros t trace subs s Ht Hs Hi. rewrite nth_error_map in Hs. destruct (nth_error acc t) as [xs|] eqn:Ex; [|discriminate]. injection Hs as <-.
        apply in_map_iff in Hi as (x & <- & Hx). destruct (H t x) as (a & _ & _ & Ho & El & _). { rewrite (nth_error_nth _ _ _ Ex). exact Hx. }
        rewrite (nth_error_nth _ _ _ Ht) in Ho. cbn [sa_first_pos sa_length]. rewrite El. apply occurs_in. exact Ho.
      - destruct (SufProofs11.all_traces_proof ord O ty hashes) as (acc & E & H). exists acc. split; [exact E|]. clear E.
        intros t trace subs s Ht Hs Hi. rewrite nth_error_map in Hs. destruct (nth_error acc t) as [xs|] eqn:Ex; [|discriminate]. injection Hs as <-.
        apply in_map_iff in Hi as (x & <- & Hx). revert t Ht Ex. induction H as [|w l hs acc Hw _ IH]; intros [|t] Ht Ex; try discriminate.
        + injection Ht as ->. injection Ex as ->. destruct Hw as (_ & _ & Hw & _). destruct (Hw x Hx) as (a & _ & Ho & El & _). cbn [sa_first_pos sa_length]. rewrite El. apply occurs_in. exact Ho.
        + exact (IH t Ht Ex).
    Qed.
    Lemma maximal_ok max hashes : good' (Forall2 (fun trace arrays => forall a, In a arrays -> ta_first_pos a + ta_length a <= length trace) hashes) (r_find_maximal sip hashes max).
    Proof.
      unfold r_find_maximal. apply good_mapM. intros w. pose proof (maximal_cases sip w max) as H. destruct (r_maximal_of_trace sip max w) as [arrays|e] eqn:E; cbn [good].
      - intros [i L r] Ha. apply (r_exact_proof sip w max arrays E) in Ha as (_ & _ & Hr & (Hb & _) & _). cbn [ta_first_pos ta_length]. nia.
      - destruct H as (L & i & _ & _ & _ & Eh). pose proof (hash_error _ _ Eh) as He. injection He as ->. split; [reflexivity|]. exists (piece w i L). exact Eh.
    Qed.
    Lemma Forall2_nth {X Y} (R : X -> Y -> Prop) : forall l m, Forall2 R l m -> forall t x y, nth_error l t = Some x -> nth_error m t = Some y -> R x y.
    Proof. induction 1 as [|x y l m H _ IH]; intros [|t] x' y' Hx Hy; try discriminate; [injection Hx as <-; injection Hy as <-; exact H|]. exact (IH t x' y' Hx Hy). Qed.
    Lemma finder_ok cfg kind hashes : (if is_tandem kind then cf_array_length cfg <> None else cf_merged cfg <> None) -> good' (within hashes) (finder kind cfg hashes).
    Proof.
      intros Hk. unfold run_finder. assert (Rp : forall ty, cf_merged cfg <> None -> good' (within hashes) (bind (need (cf_merged cfg)) (fun m => bind (SufModel.find_repeats ord ty m hashes) (fun l => Ok (as_subs l))))).
      { intros ty Hm. destruct (cf_merged cfg) as [m|]; [|congruence]. cbn [need bind]. destruct (repeats_ok ty m hashes) as (l & -> & H). exact H. }
      destruct kind; cbn [is_tandem] in Hk; try (apply Rp; exact Hk).
      - destruct (cf_array_length cfg) as [n|]; [|congruence]. cbn [SufModel.unwrap bind]. pose proof (maximal_ok n hashes) as M. unfold r_primitive_subs. destruct (r_find_maximal sip hashes n) as [l|e] eqn:E.
        + rewrite (r_find_primitive_eq sip hashes n l E). cbn [bind good]. cbn [good] in M. intros t trace subs s Ht Hs Hi. rewrite !nth_error_map in Hs.
          destruct (nth_error (combine l hashes) t) as [[arrays tr]|] eqn:Ec; [|discriminate Hs]. apply nth_combine in Ec as [E1 E2]. injection Hs as <-. apply in_map_iff in Hi as (a & <- & Ha). apply filter_In in Ha as [Ha _].
          exact (Forall2_nth _ _ _ M t trace arrays Ht E1 a Ha).
        + unfold r_find_primitive. rewrite E. destruct M as [[= ->] M]. split; [reflexivity|exact M].
      - destruct (cf_array_length cfg) as [n|]; [|congruence]. cbn [SufModel.unwrap bind]. unfold r_maximal_subs. eapply good_bind; [apply maximal_ok|]. intros l M. cbn [good].
        intros t trace subs s Ht Hs Hi. rewrite nth_error_map in Hs. destruct (nth_error l t) as [arrays|] eqn:El; [|discriminate]. injection Hs as <-. apply in_map_iff in Hi as (a & <- & Ha).
        exact (Forall2_nth _ _ _ M t trace arrays Ht El a Ha).
    Qed.
    Lemma sets_good hashes patterns : within hashes patterns -> good' (fun sets => r_build_repeat_sets sip ord hashes patterns = Ok sets) (r_build_repeat_sets sip ord hashes patterns).
    Proof.
      intros Hw. destruct (r_build_repeat_sets sip ord hashes patterns) as [sets|e] eqn:E; [reflexivity|]. unfold r_build_repeat_sets in E.
      assert (G : good' (fun _ => True) (r_repeat_loop sip ord 0 (combine hashes patterns) [])).
      { assert (Hc : forall t trace subs s, In (trace, subs) (combine hashes patterns) -> t = (trace, subs) -> In s subs -> sa_first_pos s + sa_length s <= length trace).
        { intros t trace subs s Hin _ Hs. apply In_nth_error in Hin as (k & Hk). apply nth_combine in Hk as [H1 H2]. exact (Hw k trace subs s H1 H2 Hs). }
        clear Hw E. revert Hc. generalize (combine hashes patterns) 0 (@nil (N * repeat_set)). induction l as [|[trace subs] l IH]; intros i d Hc; [exact I|]. cbn [r_repeat_loop].
        eapply (good_bind (fun _ => True)); [|intros acc _; apply IH; intros t tr sb s Hin; apply (Hc t); right; exact Hin].
        assert (Hs : forall s, In s subs -> sa_first_pos s + sa_length s <= length trace) by (intros s Hin; apply (Hc (trace, subs) trace subs s); [left; reflexivity|reflexivity|exact Hin]). clear Hc IH. revert d.
        induction subs as [|s subs IH]; intros d; [exact I|]. rewrite loopM_cons. eapply (good_bind (fun _ => True)); [|intros; apply IH; intros; apply Hs; right; assumption].
        unfold r_repeat_step. rewrite range_of_piece by (apply Hs; left; reflexivity). cbn [bind]. eapply good_bind; [apply hash_good|]. intros h _. exact I. }
      destruct (r_repeat_loop sip ord 0 (combine hashes patterns) []) as [d|e']; [discriminate|]. injection E as <-. destruct G as [[= ->] G]. split; [reflexivity|exact G].
    Qed.
    Lemma discover_ok c level cfg log ex patterns : regex_valid compile cfg -> ac_log c = Some log -> ac_hashes c = Some (map (map (event_hash name_of text_hash ex)) log) -> ac_patterns c = Some patterns ->
      within (map (map (event_hash name_of text_hash ex)) log) patterns -> good' (fun c' => exists tree, c' = put_activities c tree /\ all_of_level level tree) (disc c level cfg).
    Proof.
      intros Hr Hl Hh Hp Hw. unfold discover. rewrite Hl, Hh, Hp. cbn [need bind]. set (hashes := map (map (event_hash name_of text_hash ex)) log) in *.
      eapply good_bind; [apply sets_good; exact Hw|]. intros sets Es. assert (Hx : exists ex', match sets with [] => Ok None | _ => extractor compile cfg end = Ok ex').
      { destruct sets; [eauto|]. apply extractor_ok. exact Hr. }
      destruct Hx as (ex' & ->). cbn [bind].
      assert (Hn : exists names, mapM (activity_name name_of ex' log) sets = Ok names).
      { destruct (sets_found_proof sip ord O hashes patterns sets Es) as (_ & l0 & HP & Hi & _).
        destruct (SufProofs4.mapM_all (activity_name name_of ex' log) (fun _ _ => True) sets) as (names & En & _); [|eauto].
        intros r Hr'. apply (Permutation_in _ HP) in Hr'. apply in_map_iff in Hr' as (x & <- & Hx). apply Hi, in_all_patterns in Hx as (k & subs & trace & s & H1 & H2 & ->).
        apply nth_combine in H1 as [Hps Ht]. pose proof (Hw k trace subs s Ht Hps H2) as Hb. unfold hashes in Ht. rewrite nth_error_map in Ht. destruct (nth_error log k) as [t|] eqn:Et; [|discriminate]. injection Ht as <-. rewrite map_length in Hb.
        eexists. split; [|exact I]. apply (name_proof _ name_of ex' log _ t); cbn [RActProofs2.entry fst rs_trace_index rs_first_pos rs_length Nat.add]; assumption. }
      destruct Hn as (names & ->). cbn [bind].
      destruct (r_discovered_proof _ (fun r => (match activity_name name_of ex' log r with Ok n => n | Err _ => [] end, level)) sip ord hashes patterns sets O Es) as (F & EF & _ & HF & _).
      rewrite EF. exists F. split; [reflexivity|]. intros a Ha. destruct (HF a Ha) as (r & _ & -> & _). reflexivity.
    Qed.
    Lemma find_ok c cfg log level : patterns_keys cfg -> cf_level cfg = Some level -> regex_valid compile cfg -> ac_log c = Some log ->
      good' (fun c1 => exists ex patterns tree, c1 = put_activities (put_patterns c (map (map (event_hash name_of text_hash ex)) log) patterns) tree /\
        within (map (map (event_hash name_of text_hash ex)) log) patterns /\ all_of_level level tree) (find c cfg).
    Proof.
      intros (kind & Ek & Hk) Hlv Hr Hl. unfold find_patterns. rewrite Ek, Hl. cbn [need bind].
      destruct (extractor_ok cfg Hr) as (ex & Ex).
      assert (E1 : match kind with PrimitiveTandemArrays | MaximalTandemArrays => bind (SufModel.unwrap (cf_array_length cfg)) (fun _ => Ok tt) | _ => bind (need (cf_merged cfg)) (fun _ => Ok tt) end = Ok tt).
      { destruct kind; cbn [is_tandem] in Hk; [destruct (cf_array_length cfg)|destruct (cf_array_length cfg)|destruct (cf_merged cfg)|destruct (cf_merged cfg)|destruct (cf_merged cfg)]; try reflexivity; congruence. }
      rewrite E1. cbn [bind]. unfold hashed_log. rewrite Ex. cbn [bind]. eapply good_bind; [apply finder_ok; exact Hk|]. intros patterns Hw. rewrite Hlv. cbn [need bind].
      eapply good_impl; [|apply (discover_ok (put_patterns c (map (map (event_hash name_of text_hash ex)) log) patterns) level cfg log ex patterns Hr Hl eq_refl eq_refl Hw)].
      intros c' (tree & -> & Ht). exists ex, patterns, tree. repeat split; assumption.
    Qed.
    Lemma discovery_ok level cfg c log : patterns_keys cfg -> instances_keys cfg -> cf_level cfg <> None -> regex_valid compile cfg -> ac_log c = Some log ->
      good' (fun c3 => discovery' level cfg c = Ok c3) (discovery' level cfg c).
    Proof.
      intros Hp (Hi1 & Hi2 & Hi3) Hlv Hr Hl. enough (G : good' (fun _ => True) (discovery' level cfg c)) by (destruct (discovery' level cfg c); [reflexivity|exact G]). destruct (need_some _ Hlv) as (lv & Elv & _).
      unfold discovery. eapply good_bind; [exact (find_ok (clear c) cfg log lv Hp Elv Hr Hl)|]. intros c1 (ex & patterns & tree & -> & Hw & _).
      eapply good_bind; [exact (discover_ok (put_activities (put_patterns (clear c) (map (map (event_hash name_of text_hash ex)) log) patterns) tree) level cfg log ex patterns Hr Hl eq_refl eq_refl Hw)|]. intros c2 (tree2 & -> & _).
      unfold discover_instances. destruct (need_some _ Hi1) as (n1 & _ & ->). destruct (need_some _ Hi2) as (n2 & _ & ->). destruct (need_some _ Hi3) as (n3 & _ & ->).
      cbn [put_activities put_patterns ac_activities ac_hashes need bind].
      destruct (r_instances_proof _ fst (map (map (event_hash name_of text_hash ex)) log) tree2 n1 n2 n3) as (r & -> & _). exact I.
    Qed.
  End Total.

  (** * what is found, whenever something is *)
  Lemma find_inv c cfg c1 : find c cfg = Ok c1 -> exists log ex patterns tree, ac_log c = Some log /\ c1 = put_activities (put_patterns c (map (map (event_hash name_of text_hash ex)) log) patterns) tree.
  Proof.
    unfold find_patterns. intros H. inv_bind H. destruct (ac_log c) as [log|] eqn:El; [|discriminate H]. cbn [need bind] in H. inv_bind H. inv_bind H.
    unfold hashed_log in E1. destruct (extractor compile cfg) as [ex|]; [|discriminate]. cbn [bind] in E1. injection E1 as <-. inv_bind H. inv_bind H.
    unfold discover in H. inv_bind H. inv_bind H. inv_bind H. inv_bind H. inv_bind H. inv_bind H. inv_bind H. injection H as <-. exists log, ex, a1. eexists. split; reflexivity.
  Qed.
  Lemma discover_inv c level cfg c2 : disc c level cfg = Ok c2 -> exists tree, c2 = put_activities c tree.
  Proof. unfold discover. intros H. do 7 inv_bind H. injection H as <-. eauto. Qed.
  Lemma discovery_inv level cfg c c3 : discovery' level cfg c = Ok c3 -> exists log hashes patterns tree l, ac_log c = Some log /\
    c3 = mkACtx (Some log) (Some hashes) (Some patterns) None (Some tree) (Some l) (ac_name c) /\ in_order l log.
  Proof.
    unfold discovery. intros H. inv_bind H. destruct (find_inv _ _ _ E) as (log & ex & patterns & tree & El & ->). clear E. inv_bind H. destruct (discover_inv _ _ _ _ E) as (tree2 & ->). clear E.
    unfold discover_instances in H. cbn [put_activities put_patterns clear ac_activities ac_hashes need bind] in H. do 4 inv_bind H. injection H as <-. cbn [clear ac_log] in El.
    exists log, (map (map (event_hash name_of text_hash ex)) log), patterns, (sort_asc tree2), a2. split; [exact El|]. split; [unfold put_instances, put_activities, put_patterns, clear; cbn; rewrite El; reflexivity|].
    destruct (r_instances_proof _ fst (map (map (event_hash name_of text_hash ex)) log) tree2 a a0 a1) as (r & Er & HF). rewrite Er in E2. injection E2 as ->. clear -HF. unfold in_order.
    remember (map (map (event_hash name_of text_hash ex)) log) as hs eqn:Eh. revert log Eh. induction HF as [|t l hs r [_ Ho] _ IH]; intros [|t' log] Eh; try discriminate; [constructor|].
    cbn [map] in Eh. injection Eh as E1 E2. constructor; [|apply IH; exact E2]. rewrite E1, map_length in Ho. exact Ho.
  Qed.
  Lemma discovery_search level cfg c c3 log l : discovery' level cfg c = Ok c3 -> ac_log c = Some log -> ac_instances c3 = Some l -> search name_of sip text_hash ord compile level cfg log l.
  Proof.
    intros H Hl Hi. unfold search, discovery in *. inv_bind H. inv_bind H.
    assert (G : exists a', find (clear (put_log empty_context log)) cfg = Ok a' /\ ac_log a' = ac_log a /\ ac_hashes a' = ac_hashes a /\ ac_patterns a' = ac_patterns a /\ ac_activities a' = ac_activities a).
    { clear E0. unfold find_patterns in *. cbn [clear put_log empty_context ac_log]. cbn [clear ac_log] in E. rewrite Hl in E. inv_bind E. cbn [need bind] in *. inv_bind E. inv_bind E. inv_bind E. inv_bind E. 
      unfold discover in *. cbn [put_patterns ac_log ac_patterns ac_hashes clear put_log empty_context] in *. rewrite Hl in E. cbn [need bind] in *. do 4 inv_bind E. injection E as <-. redo. eexists. split; [reflexivity|].
      cbn. rewrite Hl. repeat split. }
    destruct G as (a' & -> & G1 & G2 & G3 & G4). cbn [bind].
    assert (G : exists b, disc a' level cfg = Ok b /\ ac_activities b = ac_activities a0 /\ ac_hashes b = ac_hashes a0).
    { unfold discover in *. rewrite G1, G2, G3. do 7 inv_bind E0. injection E0 as <-. cbn [bind]. cbv zeta. redo. eexists. split; [reflexivity|]. cbn. rewrite G2. split; reflexivity. }
    destruct G as (b & -> & B1 & B2). cbn [bind]. unfold discover_instances in *. rewrite B1, B2. do 6 inv_bind H. injection H as <-. redo. eexists. split; [etransitivity; [exact (f_equal (fun r => bind r _) E6)|reflexivity]|exact Hi].
  Qed.
  Lemma create_inv cfg c c5 : create_log fresh c cfg = Ok c5 -> exists log l u new, ac_log c = Some log /\ ac_instances c = Some l /\ cf_undef cfg = Some u /\
    new_log (strategy_of fresh u) (event_for fresh) log l = Ok new /\ c5 = put_log c new.
  Proof.
    unfold create_log. intros H. destruct (ac_log c) as [log|]; [|discriminate]. destruct (ac_instances c) as [l|]; [|discriminate]. destruct (cf_undef cfg) as [u|]; [|discriminate]. cbn [need bind] in H. inv_bind H. injection H as <-.
    exists log, l, u, a. repeat split. exact E.
  Qed.

  (** * the rounds *)
  Notation loop := (until_loop name_of fresh sip text_hash ord compile).
  Notation found := (search name_of sip text_hash ord compile).
  Notation new_log' u := (new_log (strategy_of fresh u) (event_for fresh)).

  Lemma count_zero (l : list (list (instance (pystr * nat)))) : (instances_count l =? 0) = true <-> concat l = [].
  Proof.
    unfold instances_count. rewrite Nat.eqb_eq. induction l as [|x l IH]; [split; reflexivity|]. change (length x + list_sum (map (@length _) l) = 0 <-> x ++ concat l = []). destruct x; cbn [length app Nat.add]; [exact IH|]. split; discriminate.
  Qed.
  Lemma single_iff (l : list (list (instance (pystr * nat)))) : all_single l = true <-> forall x, In x (concat l) -> in_length x = 1.
  Proof.
    unfold all_single. rewrite forallb_forall. split.
    - intros H x Hx. apply in_concat in Hx as (r & Hr & Hx). specialize (H r Hr). rewrite forallb_forall in H. apply Nat.eqb_eq, H, Hx.
    - intros H r Hr. apply forallb_forall. intros x Hx. apply Nat.eqb_eq, H, in_concat. eauto.
  Qed.
  Lemma sum_one {D} (l : list (instance D)) : Forall (fun x => 0 < in_length x) l -> list_sum (map in_length l) <= length l -> Forall (fun x => in_length x = 1) l.
  Proof.
    assert (G : forall l : list (instance D), Forall (fun x => 0 < in_length x) l -> length l <= list_sum (map in_length l)).
    { induction 1 as [|x r Hx _ IH]; [cbn; lia|]. change (S (length r) <= in_length x + list_sum (map in_length r)). lia. }
    induction 1 as [|x r Hx Hr IH]; [constructor|]. change (in_length x + list_sum (map in_length r) <= S (length r) -> Forall (fun x => in_length x = 1) (x :: r)). intros H. specialize (G r Hr). constructor; [lia|apply IH; lia].
  Qed.
  Lemma in_order_positive {B D} (acts : list (list (instance D))) (log : list (list B)) : in_order acts log -> Forall (fun x => 0 < in_length x) (concat acts).
  Proof.
    induction 1 as [|l t acts log H _ IH]; [constructor|]. cbn [concat]. apply Forall_app. split; [|exact IH]. clear -H. enough (G : forall lo, ordered lo (length t) l -> Forall (fun x => 0 < in_length x) l) by exact (G 0 H). clear H. induction l as [|x l IH]; intros lo; [constructor|]. cbn [ordered]. intros (_ & H & Ho). constructor; [exact H|]. exact (IH _ Ho).
  Qed.
  Lemma same_count_single u log l new : in_order l log -> new_log' u log l = Ok new -> count_events new = count_events log -> forall x, In x (concat l) -> in_length x = 1.
  Proof.
    intros Ho Hn E. destruct (shrink_proof _ _ _ _ _ _ _ Ho Hn) as (_ & H & _). apply Forall_forall, sum_one; [exact (in_order_positive _ _ Ho)|lia].
  Qed.

  (** How a search ends: the last one found nothing, or single events only. *)
  Definition ends level cfg (final : list (list (revent A))) : Prop := exists last l, found level cfg last l /\ in_order l last /\ (forall x, In x (concat l) -> in_length x = 1) /\
    (concat l = [] /\ final = last \/ exists u, cf_undef cfg = Some u /\ new_log' u last l = Ok final).
  Lemma until_inv after level only cfg : opt keeping after -> forall fuel c c' runs, loop fuel after level only cfg c = Ok (c', runs) ->
    exists log final, ac_log c = Some log /\ ac_log c' = Some final /\ cleared c' /\ length final = length log /\ count_events final <= count_events log /\
      (cf_undef cfg = Some DtoInsertAll -> rounds (event_for fresh) log final) /\
      ends level cfg final /\
      Forall with_instances runs /\ StronglySorted (fun a b => events_of b < events_of a) runs /\ Forall (fun r => events_of r <= total_length log) runs /\
      (only = true -> length runs <= 1 /\ Forall single_only runs) /\
      (after = None -> runs = []) /\
      (only = false -> after <> None -> runs = [] -> final = log /\ exists l, found level cfg log l /\ concat l = []).
  Proof.
    intros K. induction fuel as [|fuel IH]; intros c c' runs H; [discriminate|]. cbn [until_loop] in H.
    inv_bind H. apply need_ok in E. inv_bind H. destruct (discovery_inv _ _ _ _ E0) as (log & hashes & patterns & tree & l & El & E3 & Ho). rewrite E in El. injection El as ->.
    assert (Fd : found level cfg log l). { apply (discovery_search level cfg c a0 log l E0 E). rewrite E3. reflexivity. }
    rewrite E3 in H. cbn [ac_instances need bind] in H. exists log. destruct (instances_count l =? 0) eqn:Ez.
    { injection H as <- <-. apply count_zero in Ez. exists log. split; [exact E|]. split; [reflexivity|]. split; [repeat split|]. split; [reflexivity|]. split; [lia|]. split; [constructor|].
      split. { exists log, l. split; [exact Fd|]. split; [exact Ho|]. split; [rewrite Ez; intros ? []|]. left. split; [exact Ez|reflexivity]. }
      split; [constructor|]. split; [constructor|]. split; [constructor|]. split; [intros _; split; [cbn; lia|constructor]|]. split; [reflexivity|]. intros _ _ _. split; [reflexivity|]. exists l. split; [exact Fd|exact Ez]. }
    set (pipeline := match after with Some p => if only then if all_single l then Some p else None else Some p | None => None end) in H.
    rewrite <- E3 in H. inv_bind H. destruct a as [c4 run]. cbn [fst snd] in H.
    assert (R : ac_log c4 = Some log /\ ac_instances c4 = Some l /\ (run = [] /\ (after = None \/ only = true) \/ run = [a0] /\ after <> None /\ (only = true -> all_single l = true))).
    { assert (Kp : opt keeping pipeline). { unfold pipeline. destruct after; [|exact I]. destruct only; [destruct (all_single l)|]; try exact K; exact I. }
      assert (Kn : pipeline = None -> after = None \/ only = true). { unfold pipeline. destruct after; [|left; reflexivity]. destruct only; [right; reflexivity|discriminate]. }
      assert (Ks : pipeline <> None -> after <> None /\ (only = true -> all_single l = true)). { unfold pipeline. destruct after; [|congruence]. intros Hs. split; [discriminate|]. intros ->. destruct (all_single l); congruence. }
      destruct pipeline as [p|]; cbn in Kp.
      - inv_bind E1. injection E1 as <- <-. destruct (Kp _ _ E2) as [-> ->]. rewrite E3. repeat split. right. split; [reflexivity|]. apply Ks. discriminate.
      - injection E1 as <- <-. rewrite E3. repeat split. left. split; [reflexivity|]. apply Kn. reflexivity. }
    clear E1 pipeline. destruct R as (Rl & Ri & R). inv_bind H. destruct (create_inv _ _ _ E1) as (log' & l' & u & new & C1 & C2 & C3 & C4 & C5). rewrite Rl in C1. injection C1 as <-. rewrite Ri in C2. injection C2 as <-.
    rewrite C5 in H. cbn [put_log ac_log need bind] in H. rewrite <- C5 in H.
    destruct (new_log_proof _ _ (strategy_of fresh u) (event_for fresh) _ _ Ho) as (new' & Hn' & Hlen & _). rewrite C4 in Hn'. injection Hn' as <-.
    destruct (shrink_proof _ _ _ _ _ _ _ Ho C4) as (Hle & Hsh & _).
    assert (Hnone : concat l <> []). { intros Hn. apply count_zero in Hn. congruence. }
    assert (Ha0 : with_instances a0). { exists log, l. rewrite E3. repeat split; [exact Ho|]. destruct (concat l) as [|x r]; [congruence|]. exists x. left. reflexivity. }
    assert (He0 : events_of a0 = total_length log) by (rewrite E3; reflexivity).
    assert (Hun : cf_undef cfg = Some DtoInsertAll -> strategy_of fresh u = InsertAll) by (rewrite C3; intros [= ->]; reflexivity).
    destruct ((only && negb (length run =? 0)) || (count_events new =? count_events log)) eqn:Estop.
    - injection H as <- <-. exists new. rewrite C5. split; [exact E|]. split; [reflexivity|]. split; [repeat split|]. split; [exact Hlen|]. split; [exact Hle|].
      split. { intros Hu. rewrite (Hun Hu) in C4. apply (rounds_more _ _ l new new Ho C4). constructor. }
      split. { exists log, l. split; [exact Fd|]. split; [exact Ho|]. split; [|right; exists u; split; assumption]. apply orb_true_iff in Estop as [Es|Es].
        - apply andb_true_iff in Es as [-> Hr]. destruct R as [[-> _]|(_ & _ & R)]; [discriminate Hr|]. apply single_iff, R. reflexivity.
        - apply Nat.eqb_eq in Es. exact (same_count_single u log l new Ho C4 Es). }
      destruct R as [[-> R]|(-> & Hp & R)].
      + split; [constructor|]. split; [constructor|]. split; [constructor|]. split; [intros _; split; [cbn; lia|constructor]|]. split; [reflexivity|]. intros -> Hp. destruct R as [->|]; [congruence|discriminate].
      + split; [constructor; [exact Ha0|constructor]|]. split; [constructor; constructor|]. split; [constructor; [rewrite He0; lia|constructor]|].
        split; [|split; [congruence|discriminate]]. intros Hon. split; [cbn; lia|]. constructor; [|constructor]. exists l. rewrite E3. split; [reflexivity|]. apply single_iff, R, Hon.
    - apply orb_false_iff in Estop as [Es En]. apply Nat.eqb_neq in En. inv_bind H. destruct a1 as [c'' runs']. cbn [fst snd] in H. injection H as <- <-.
      destruct (IH _ _ _ E2) as (log1 & final & I1 & I2 & I4 & I5 & I6 & I7 & I8 & I9 & I10 & I11 & I12 & I13 & I14). rewrite C5 in I1. cbn [put_log ac_log] in I1. injection I1 as <-. pose proof (count_events_eq new) as Q1. pose proof (count_events_eq log) as Q2.
      exists final. split; [exact E|]. split; [exact I2|]. split; [exact I4|]. split; [congruence|]. split; [lia|].
      split. { intros Hu. pose proof C4 as C4'. rewrite (Hun Hu) in C4'. apply (rounds_more _ _ l new final Ho C4'). apply I7. exact Hu. }
      split; [exact I8|].
      assert (Hlt : Forall (fun r => events_of r < total_length log) runs'). { eapply Forall_impl; [|exact I11]. cbn. intros r Hr. lia. }
      destruct R as [[-> R]|(-> & Hp & R)]; cbn [app].
      + split; [exact I9|]. split; [exact I10|]. split; [eapply Forall_impl; [|exact Hlt]; cbn; intros; lia|]. split; [exact I12|]. split; [exact I13|]. intros -> Hp. destruct R as [->|]; [congruence|discriminate].
      + split; [constructor; [exact Ha0|exact I9]|]. split; [constructor; [exact I10|rewrite He0; exact Hlt]|]. split; [constructor; [lia|eapply Forall_impl; [|exact Hlt]; cbn; intros; lia]|].
        split; [|split; [congruence|discriminate]]. intros ->. cbn in Es. discriminate.
  Qed.

  Lemma bind_ext {X Y} (x : result X) (f g : X -> result Y) : (forall a, x = Ok a -> f a = g a) -> bind x f = bind x g.
  Proof. intros H. destruct x as [a|]; [cbn; apply H; reflexivity|reflexivity]. Qed.
  Definition with_pipeline (after : option (ctx -> result ctx)) (only : bool) (l : list (list (instance (pystr * nat)))) (c3 : ctx) : result (ctx * list ctx) :=
    match match after with Some p => if only then if all_single l then Some p else None else Some p | None => None end with
    | Some p => bind (p c3) (fun c4 => Ok (c4, [c3])) | None => Ok (c3, []) end.
  Lemma with_pipeline_keeps after only l c3 r : opt keeping after -> with_pipeline after only l c3 = Ok r -> ac_log (fst r) = ac_log c3 /\ ac_instances (fst r) = ac_instances c3.
  Proof.
    intros K. unfold with_pipeline. assert (P : forall p, keeping p -> bind (p c3) (fun c4 => Ok (c4, [c3])) = Ok r -> ac_log (fst r) = ac_log c3 /\ ac_instances (fst r) = ac_instances c3).
    { intros p Kp H. inv_bind H. injection H as <-. exact (Kp _ _ E). }
    destruct after as [p|]; [|intros [= <-]; split; reflexivity]. destruct only; [destruct (all_single l)|]; try (intros H; exact (P p K H)). intros [= <-]; split; reflexivity.
  Qed.
  Lemma keeps_harmless (after : option (ctx -> result ctx)) : opt harmless after -> opt keeping after.
  Proof. destruct after as [p|]; [|exact id]. cbn. intros H c c' E. destruct (H c) as (c2 & E2 & H2). rewrite E in E2. injection E2 as ->. exact H2. Qed.
  Lemma with_pipeline_ok after only l c3 : opt harmless after -> exists r, with_pipeline after only l c3 = Ok r.
  Proof.
    intros K. unfold with_pipeline. destruct after as [p|]; [|eauto]. destruct (K c3) as (c4 & E & _).
    destruct only; [destruct (all_single l)|]; rewrite ?E; cbn [bind]; eauto.
  Qed.

  Lemma until_total after level only cfg : any_order ord -> opt harmless after -> until_keys cfg -> regex_valid compile cfg ->
    forall fuel c log, ac_log c = Some log -> count_events log < fuel -> good' (fun r => loop fuel after level only cfg c = Ok r) (loop fuel after level only cfg c).
  Proof.
    intros O K (K1 & K2 & K3 & K4 & K5) Hr fuel c log Hl Hf. enough (G : good' (fun _ => True) (loop fuel after level only cfg c)) by (destruct (loop fuel after level only cfg c); [reflexivity|exact G]).
    revert c log Hl Hf. induction fuel as [|fuel IH]; intros c log Hl Hf; [lia|]. cbn [until_loop]. rewrite Hl. cbn [need bind].
    eapply good_bind; [exact (discovery_ok O level cfg c log K1 K2 K3 Hr Hl)|]. intros c3 E3. destruct (discovery_inv _ _ _ _ E3) as (log' & hashes & patterns & tree & l & El & Ec & Ho). rewrite Hl in El. injection El as <-.
    assert (Hi : ac_instances c3 = Some l) by (rewrite Ec; reflexivity). assert (Hl3 : ac_log c3 = Some log) by (rewrite Ec; reflexivity). rewrite Hi. cbn [need bind].
    destruct (instances_count l =? 0); [exact I|]. fold (with_pipeline after only l c3). destruct (with_pipeline_ok after only l c3 K) as ((c4 & run) & Ep). rewrite Ep. cbn [bind fst snd].
    destruct (with_pipeline_keeps _ _ _ _ _ (keeps_harmless _ K) Ep) as [Kl Ki]. cbn [fst] in Kl, Ki. unfold create_log. rewrite Kl, Ki, Hl3, Hi. cbn [need bind]. destruct (need_some _ K4) as (u & _ & ->). cbn [bind].
    destruct (new_log_proof _ _ (strategy_of fresh u) (event_for fresh) _ _ Ho) as (new & En & _). rewrite En. cbn [bind put_log ac_log need].
    destruct ((only && negb (length run =? 0)) || (count_events new =? count_events log)) eqn:Es; [exact I|]. apply orb_false_iff in Es as [_ Es]. apply Nat.eqb_neq in Es. destruct (shrink_proof _ _ _ _ _ _ _ Ho En) as (Hle & _).
    eapply good_bind; [exact (IH (put_log c4 new) new eq_refl ltac:(lia))|]. intros r _. exact I.
  Qed.
  Lemma until_fuel after level only cfg : opt keeping after -> forall fuel fuel2 c log, ac_log c = Some log -> count_events log < fuel -> count_events log < fuel2 ->
    loop fuel after level only cfg c = loop fuel2 after level only cfg c.
  Proof.
    intros K. induction fuel as [|fuel IH]; intros [|fuel2] c log Hl Hf Hf2; try lia. cbn [until_loop]. apply bind_ext. intros log' Hlog. rewrite Hl in Hlog. injection Hlog as <-.
    apply bind_ext. intros c3 E3. destruct (discovery_inv _ _ _ _ E3) as (log' & hashes & patterns & tree & l & El & Ec & Ho). rewrite Hl in El. injection El as <-.
    assert (Hi : ac_instances c3 = Some l) by (rewrite Ec; reflexivity). assert (Hl3 : ac_log c3 = Some log) by (rewrite Ec; reflexivity). rewrite Hi. cbn [need bind].
    destruct (instances_count l =? 0); [reflexivity|]. fold (with_pipeline after only l c3). apply bind_ext. intros (c4 & run) Ep. cbn [fst snd].
    destruct (with_pipeline_keeps _ _ _ _ _ K Ep) as [Kl Ki]. cbn [fst] in Kl, Ki. apply bind_ext. intros c5 E5. destruct (create_inv _ _ _ E5) as (log' & l' & u & new & C1 & C2 & C3 & C4 & ->).
    rewrite Kl, Hl3 in C1. injection C1 as <-. rewrite Ki, Hi in C2. injection C2 as <-. cbn [put_log ac_log need bind].
    destruct ((only && negb (length run =? 0)) || (count_events new =? count_events log)) eqn:Es; [reflexivity|]. apply orb_false_iff in Es as [_ Es]. apply Nat.eqb_neq in Es. destruct (shrink_proof _ _ _ _ _ _ _ Ho C4) as (Hle & _).
    rewrite (IH fuel2 (put_log c4 new) new eq_refl) by lia. reflexivity.
  Qed.

  (** * several levels *)
  Notation adjust' := (adjust name_of sip text_hash ord compile).
  Notation levels' := (several_levels name_of sip text_hash ord compile).
  Notation known_acts := (@known_activities A).
  Notation known_insts := (@known_instances A).

  Lemma empty_in_order (log : list (list (revent A))) : in_order (empty_instances log) log.
  Proof. unfold in_order, empty_instances. induction log as [|t log IH]; constructor; [cbn; lia|exact IH]. Qed.
  Lemma add_log (f : revent A -> N) (acts : list (anode (pystr * nat))) minimum kind min_events fkind log existing : in_order existing log ->
    exists r, r_add_unattached fst acts minimum kind min_events fkind (map (map f) log) existing = Ok r /\ in_order r log /\ Forall2 thinned existing r.
  Proof.
    unfold in_order, r_add_unattached. induction 1 as [|l t existing log H _ (r & E & I1 & I2)]; [exists []; repeat split; constructor|]. cbn [map combine mapM fst snd].
    destruct (add_proof fst acts minimum kind min_events fkind (map f t) l) as (x & Ex & Ho & Ht & _); [rewrite map_length; exact H|]. rewrite Ex. cbn [bind]. rewrite E. exists (x :: r). split; [reflexivity|].
    rewrite map_length in Ho. split; constructor; assumption.
  Qed.
  Definition can_adjust (cfg : act_config) (c : ctx) : Prop := cf_adjusting cfg = Some FromAllLog \/ cf_adjusting cfg = Some FromUnattachedSubTraces /\ ac_instances c <> None.
  Lemma adjust_ok cfg c log level : any_order ord -> patterns_keys cfg -> instances_keys cfg -> cf_level cfg = Some level -> cf_events_count cfg <> None -> can_adjust cfg c ->
    regex_valid compile cfg -> ac_log c = Some log -> in_order (known_insts log c) log ->
    good' (fun c' => exists l' F, ac_log c' = Some log /\ ac_instances c' = Some l' /\ in_order l' log /\ Forall2 thinned (known_insts log c) l' /\
      Permutation (known_acts c') (known_acts c ++ F) /\ all_of_level level F) (adjust' cfg c).
  Proof.
    intros O K1 (K2 & K3 & K4) K5 K6 K7 Hr Hl Ho. unfold adjust.
    set (c0 := match ac_activities c with None => put_activities c [] | Some _ => c end).
    assert (C : ac_log c0 = Some log /\ ac_instances c0 = ac_instances c /\ ac_activities c0 = Some (known_acts c)).
    { unfold c0, known_activities. destruct (ac_activities c) eqn:E; [repeat split; assumption|]. cbn. repeat split. exact Hl. }
    destruct C as (C1 & C2 & C3).
    assert (M : exists mode src, cf_adjusting cfg = Some mode /\ (match mode with FromUnattachedSubTraces => match ac_instances c0 with Some instances => bind (unattached_log log instances) (fun l => Ok (put_log empty_context l)) | None => Ok empty_context end | FromAllLog => Ok (put_log empty_context log) end) = Ok (put_log empty_context src)).
    { destruct K7 as [E|[E Hi]]; rewrite E; [exists FromAllLog; eauto|]. exists FromUnattachedSubTraces. rewrite C2. unfold known_instances in Ho. destruct (ac_instances c) as [l|]; [|congruence].
      destruct (unattached_proof _ _ log l Ho) as (src & Es & _). exists src. rewrite Es. split; reflexivity. }
    destruct M as (mode & src & -> & Em). cbn [need bind]. rewrite C1. cbn [need bind]. rewrite Em. cbn [bind].
    eapply good_bind; [exact (find_ok O (put_log empty_context src) cfg src level K1 K5 Hr eq_refl)|]. intros c1 (ex & patterns & F & -> & _ & HF).
    rewrite C3. cbn [put_activities ac_activities need bind]. unfold add_unattached_part. cbn [ac_log ac_instances ac_activities put_activities]. rewrite C1. cbn [need bind].
    destruct (need_some _ K2) as (n1 & _ & ->). destruct (need_some _ K3) as (n2 & _ & ->). destruct (need_some _ K4) as (n3 & _ & ->). destruct (need_some _ K6) as (n4 & _ & ->).
    unfold hashed_log. destruct (extractor_ok cfg Hr) as (ex' & ->). cbn [bind]. rewrite C2.
    destruct (add_log (event_hash name_of text_hash ex') (known_acts c ++ F) n4 n1 n2 n3 log (known_insts log c) Ho) as (r & Er & Hr1 & Hr2).
    unfold known_instances in Er. unfold empty_instances. rewrite Er. cbn [bind good]. exists r, F. split; [cbn; exact C1|]. split; [reflexivity|]. split; [exact Hr1|]. split; [exact Hr2|].
    split; [|exact HF]. unfold known_activities at 1. cbn [put_instances put_activities ac_activities]. destruct (some_stretch _ _ _); [apply sort_asc_perm|reflexivity].
  Qed.
  Lemma thinned_trans {X} (a b c : list X) : thinned a b -> thinned b c -> thinned a c.
  Proof. intros H G. revert a H. induction G as [|x l m G IH|x l m G IH]; intros a H; [exact H| |constructor; apply IH; exact H]. inversion H; subst; constructor; apply IH; assumption. Qed.
  Lemma thinned_refl {X} (a : list X) : thinned a a.
  Proof. induction a; constructor; assumption. Qed.
  Lemma levels_ok cfg mode : any_order ord -> (exists k, cf_kind cfg = Some k /\ is_tandem k = false) -> levels_keys cfg -> cf_adjusting cfg = Some mode ->
    forall regexes level c log, Forall (fun r => compile r <> None) regexes -> (mode = FromUnattachedSubTraces -> ac_instances c <> None) -> ac_log c = Some log -> in_order (known_insts log c) log ->
    good' (fun c' => exists news, ac_log c' = Some log /\ in_order (known_insts log c') log /\ Forall2 thinned (known_insts log c) (known_insts log c') /\
      Permutation (known_acts c') (known_acts c ++ concat news) /\ length news = length regexes /\ levels_from level news) (levels_loop name_of sip text_hash ord compile cfg level regexes c).
  Proof.
    intros O (k & Ek & Hk) (K1 & K2 & K3 & K4) Hmode. induction regexes as [|r regexes IH]; intros level c log Hc Hi Hl Ho.
    - exists []. split; [exact Hl|]. split; [exact Ho|]. split; [clear; induction (known_insts log c); constructor; [apply thinned_refl|assumption]|]. cbn [concat]. rewrite app_nil_r. repeat split; reflexivity.
    - apply Forall_cons_iff in Hc as [Hr Hc]. cbn [levels_loop]. eapply good_bind; [apply (adjust_ok (level_config cfg level r) c log level O)|].
      + exists k. cbn. rewrite Ek. split; [reflexivity|]. rewrite Hk. exact K3.
      + exact K1.
      + reflexivity.
      + exact K4.
      + unfold can_adjust. cbn. rewrite Hmode. destruct mode; [left; reflexivity|right]. split; [reflexivity|]. apply Hi. reflexivity.
      + exact Hr.
      + exact Hl.
      + exact Ho.
      + intros c1 (l1 & F & A1 & A2 & A3 & A4 & A5 & A6). assert (Ek1 : known_insts log c1 = l1) by (unfold known_instances; rewrite A2; reflexivity).
        eapply good_impl; [|apply (IH (S level) c1 log Hc); [intros _; congruence|exact A1|rewrite Ek1; exact A3]]. intros c' (news & B1 & B2 & B3 & B4 & B5 & B6). exists (F :: news).
        split; [exact B1|]. split; [exact B2|]. split.
        { rewrite Ek1 in B3. clear -A4 B3. revert B3. generalize (known_insts log c'). induction A4 as [|x y l1 l2 H _ IH]; intros l3 H3; inversion H3; subst; constructor; [eapply thinned_trans; eassumption|apply IH; assumption]. }
        split; [cbn [concat]; eapply Permutation_trans; [exact B4|]; rewrite app_assoc; apply Permutation_app_tail; exact A5|]. split; [cbn; congruence|]. split; assumption.
  Qed.
  Lemma several_unfold cfg c regexes level k mode : cf_regexes cfg = Some regexes -> cf_level cfg = Some level -> cf_kind cfg = Some k -> cf_adjusting cfg = Some mode -> levels_keys cfg ->
    levels' cfg c = levels_loop name_of sip text_hash ord compile cfg level (rev regexes) c.
  Proof.
    intros E1 E2 E3 E ((K1 & K2 & K3) & _ & K4 & K5). unfold several_levels. rewrite E, E1, E2, E3. cbn [need bind].
    destruct (need_some _ K1) as (? & _ & ->). destruct (need_some _ K2) as (? & _ & ->). destruct (need_some _ K3) as (? & _ & ->). destruct (need_some _ K4) as (? & _ & ->). destruct (need_some _ K5) as (? & _ & ->). reflexivity.
  Qed.
  Lemma tandem_panics cfg c log regexes k mode : cf_regexes cfg = Some regexes -> regexes <> [] -> cf_kind cfg = Some k -> is_tandem k = true -> cf_adjusting cfg = Some mode -> levels_keys cfg ->
    (mode = FromUnattachedSubTraces -> ac_instances c <> None) -> ac_log c = Some log -> in_order (known_insts log c) log -> levels' cfg c = rpanic.
  Proof.
    intros E1 Hne Ek Hk Hm K Hi Hl Ho. destruct (need_some _ (proj1 (proj2 K))) as (level & E2 & _). rewrite (several_unfold cfg c regexes level k mode E1 E2 Ek Hm K).
    destruct (rev regexes) as [|r rest] eqn:Er. { apply (f_equal (@rev _)) in Er. rewrite rev_involutive in Er. contradiction. }
    cbn [levels_loop]. unfold adjust. cbn [level_config cf_adjusting]. rewrite Hm. cbn [need bind].
    set (c0 := match ac_activities c with None => put_activities c [] | Some _ => c end).
    assert (C : ac_log c0 = Some log /\ ac_instances c0 = ac_instances c) by (unfold c0; destruct (ac_activities c); cbn; split; (exact Hl || reflexivity)). destruct C as (C1 & C2). rewrite C1, C2. cbn [need bind].
    assert (P : forall src, find (put_log empty_context src) (level_config cfg level r) = rpanic). { intros src. unfold find_patterns. cbn [level_config cf_kind]. rewrite Ek. cbn [need bind put_log ac_log]. destruct k; try discriminate Hk; reflexivity. }
    destruct mode; [cbn [bind]; rewrite P; reflexivity|]. unfold known_instances in Ho. destruct (ac_instances c) as [l|]; [|now specialize (Hi eq_refl)].
    destruct (unattached_proof _ _ log l Ho) as (src & Es & _).  rewrite Es. cbn [bind]. rewrite P. reflexivity.
  Qed.

  (** * a pipeline for each log *)
  Lemma each_ok pipeline cfg (c : ctx) log source logs : any_order ord -> (forall t, exists r, pipeline t = Ok r) -> ac_log c = Some log -> cf_source cfg = Some source ->
    match source with
    | SourceLog => Ok (logs_from_log name_of log)
    | SourceTracesActivities => bind (need (cf_level cfg)) (fun level => bind (need (ac_instances c)) (fun instances => logs_from_instances snd fst log instances level))
    end = Ok logs ->
    exists ctxs, each_activity_log name_of ord pipeline cfg c = Ok ctxs /\ Permutation ctxs (map (fun p => mkACtx (Some (snd p)) None None None None None (Some (fst p))) logs).
  Proof.
    intros O Hp Hl Hs El. unfold each_activity_log. rewrite Hl, Hs. cbn [need bind].  rewrite El. cbn [bind].
    exists (map (fun p => mkACtx (Some (snd p)) None None None None None (Some (fst p))) (ord 1 _ logs)). split; [|apply Permutation_map, O].
    induction (ord 1 _ logs) as [|p ps IH]; [reflexivity|]. cbn [mapM map]. cbv zeta. destruct (Hp (mkACtx (Some (snd p)) None None None None None (Some (fst p)))) as (r & ->). cbn [bind]. rewrite IH. reflexivity.
  Qed.
  Lemma each_entries (logs : dict pystr (list (list (revent A)))) (ctxs : list ctx) (want : pystr -> list (list (revent A)) -> Prop) :
    (forall n, exists ts, want n ts /\ (forall ts', want n ts' -> ts' = ts) /\ entry logs n ts) -> NoDup (dkeys logs) ->
    Permutation ctxs (map (fun p => mkACtx (Some (snd p)) None None None None None (Some (fst p))) logs) ->
    NoDup (map ac_name ctxs) /\ (forall c', In c' ctxs -> exists n ts, c' = only_log n ts /\ ts <> [] /\ want n ts) /\
    (forall n ts, want n ts -> ts <> [] -> In (only_log n ts) ctxs).
  Proof.
    intros Hw Hd HP. split; [|split].
    - eapply Permutation_NoDup; [apply Permutation_map, Permutation_sym, HP|]. rewrite map_map. cbn [ac_name]. unfold dkeys in Hd. clear -Hd. rewrite <- (map_map fst (@Some pystr)). induction Hd as [|n l Hn _ IH]; [constructor|]. cbn. constructor; [|exact IH].
      rewrite in_map_iff. intros (m & [= ->] & Hm). contradiction.
    - intros c' Hc. apply (Permutation_in _ HP) in Hc. apply in_map_iff in Hc as ([n ts] & <- & Hi). exists n, ts. split; [reflexivity|]. cbn [fst snd].
      destruct (Hw n) as (ts' & W1 & W2 & W3). assert (G : dget str_eq_dec logs n = Some ts) by (apply (In_dget str_eq_dec); assumption). unfold entry in W3. destruct ts' as [|x ts']; rewrite G in W3; [discriminate|]. injection W3 as ->. split; [discriminate|exact W1].
    - intros n ts W Hne. destruct (Hw n) as (ts' & W1 & W2 & W3). rewrite (W2 _ W) in *. unfold entry in W3. destruct ts' as [|x ts']; [congruence|]. apply (Permutation_in _ (Permutation_sym HP)). apply in_map_iff. exists (n, x :: ts'). split; [reflexivity|]. apply (dget_In str_eq_dec), W3.
  Qed.
End Proofs.
