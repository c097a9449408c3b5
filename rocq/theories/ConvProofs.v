(** Facts for ConvProps. *)
From Coq Require Import Lia.
From Verif Require Import Py PyFacts LogModel ConvModel ConvSpec.

Lemma event_to_pm_id e : NoDup (dkeys e) -> event_to_pm e = e.
Proof.
  unfold event_to_pm. intros H.
  enough (G : forall d, (forall k, In k (dkeys d) -> ~ In k (dkeys e)) -> fold_left (fun d kv => dset str_eq_dec d (fst kv) (snd kv)) e d = d ++ e).
  { apply (G []). intros k []. }
  induction e as [|[k v] e IH]; intros d Hd; [now rewrite app_nil_r|]. cbn [fold_left fst snd]. inversion H as [|? ? Hk Hn]; subst.
  assert (E : dset str_eq_dec d k v = d ++ [(k, v)]).
  { clear - Hd. induction d as [|[k' v'] d IHd]; [reflexivity|]. cbn. destruct (str_eq_dec k k') as [<-|Hne].
    - exfalso. apply (Hd k); cbn; auto.
    - f_equal. apply IHd. intros x Hx. apply Hd. cbn. auto. }
  rewrite E, IH; [now rewrite <- app_assoc|exact Hn|].
  intros x Hx. unfold dkeys in Hx. rewrite map_app, in_app_iff in Hx. cbn in Hx. destruct Hx as [Hx|[<-|[]]]; [|exact Hk].
  intros Hc. apply (Hd x Hx). cbn. auto.
Qed.
Lemma from_traces ts : forall my,
  fold_left (fun l t =>
    let my_trace := fold_left (fun mt e => mkTrace (t_events mt ++ [event_from_pm e]) (t_attrs mt)) (pt_events t) (mkTrace [] (pt_attrs t)) in
    mkLog (l_traces l ++ [my_trace]) (l_attrs l) (l_extensions l) (l_classifiers l) (l_properties l) (l_globals l)) ts my =
  mkLog (l_traces my ++ map (fun t => mkTrace (pt_events t) (pt_attrs t)) ts) (l_attrs my) (l_extensions my) (l_classifiers my) (l_properties my) (l_globals my).
Proof.
  assert (T : forall es mt, fold_left (fun mt e => mkTrace (t_events mt ++ [event_from_pm e]) (t_attrs mt)) es mt = mkTrace (t_events mt ++ es) (t_attrs mt)).
  { induction es as [|e es IH]; intros [a b]; cbn [fold_left t_events t_attrs]; [now rewrite app_nil_r|]. rewrite IH. cbn. now rewrite <- app_assoc. }
  induction ts as [|t ts IH]; intros [a b c d e f]; cbn [fold_left map l_traces l_attrs l_extensions l_classifiers l_properties l_globals]; [now rewrite app_nil_r|].
  cbv zeta. rewrite T. cbn [t_events t_attrs app]. rewrite IH. cbn [l_traces l_attrs l_extensions l_classifiers l_properties l_globals]. now rewrite <- app_assoc.
Qed.
Lemma to_traces ts : forall l,
  fold_left (fun l t =>
    let pt := fold_left (fun p e => mkPT (pt_events p ++ [event_to_pm e]) (pt_attrs p)) (t_events t) (mkPT [] []) in
    mkPL (pl_traces l ++ [pt]) (pl_attrs l) (pl_properties l) (pl_classifiers l) (pl_extensions l) (pl_omni_present l)) ts l =
  mkPL (pl_traces l ++ map (fun t => mkPT (map event_to_pm (t_events t)) []) ts) (pl_attrs l) (pl_properties l) (pl_classifiers l) (pl_extensions l) (pl_omni_present l).
Proof.
  assert (T : forall es p, fold_left (fun p e => mkPT (pt_events p ++ [event_to_pm e]) (pt_attrs p)) es p = mkPT (pt_events p ++ map event_to_pm es) (pt_attrs p)).
  { induction es as [|e es IH]; intros [a b]; cbn [fold_left pt_events pt_attrs map]; [now rewrite app_nil_r|]. rewrite IH. cbn. now rewrite <- app_assoc. }
  induction ts as [|t ts IH]; intros [a b c d e f]; cbn [fold_left map pl_traces pl_attrs pl_properties pl_classifiers pl_extensions pl_omni_present]; [now rewrite app_nil_r|].
  cbv zeta. rewrite T. cbn [pt_events pt_attrs app]. rewrite IH. cbn [pl_traces pl_attrs pl_properties pl_classifiers pl_extensions pl_omni_present]. now rewrite <- app_assoc.
Qed.
Lemma from_spec p : from_pm4py_log p = mkLog (map (fun t => mkTrace (pt_events t) (pt_attrs t)) (pl_traces p)) (pl_attrs p) (pl_extensions p) (pl_classifiers p) (pl_properties p) (pl_omni_present p).
Proof. unfold from_pm4py_log. cbv zeta. rewrite from_traces. reflexivity. Qed.
Lemma to_spec l : to_pm4py_log l = mkPL (map (fun t => mkPT (map event_to_pm (t_events t)) []) (l_traces l)) [] [] [] [] [].
Proof. unfold to_pm4py_log. rewrite to_traces. reflexivity. Qed.

(** Words and lines. *)
Lemma split_nonnil c l : split_on c l <> [].
Proof. destruct l as [|x l]; cbn; [discriminate|]. destruct (N.eqb x c); [discriminate|]. destruct (split_on c l); discriminate. Qed.
Lemma join_split c l : join_with c (split_on c l) = l.
Proof.
  induction l as [|x l IH]; [reflexivity|]. cbn [split_on]. pose proof (split_nonnil c l) as Hn. destruct (N.eqb_spec x c) as [->|Hx].
  - destruct (split_on c l) as [|w ws]; [congruence|]. cbn [join_with app] in *. now rewrite IH.
  - destruct (split_on c l) as [|w ws]; [congruence|]. destruct ws; cbn [join_with app] in *; now rewrite <- IH.
Qed.
Lemma split_free c l : forall w, In w (split_on c l) -> ~ In c w.
Proof.
  induction l as [|x l IH]; intros w; cbn [split_on]; [intros [<-|[]] []|]. destruct (N.eqb_spec x c) as [->|Hx].
  - intros [<-|Hw]; [intros []|apply IH, Hw].
  - pose proof (split_nonnil c l). destruct (split_on c l) as [|v ws]; [congruence|]. intros [<-|Hw].
    + intros [E|Hc]; [congruence|]. apply (IH v (or_introl eq_refl) Hc).
    + apply IH. right. exact Hw.
Qed.
Lemma split_app c a b : ~ In c a -> split_on c (a ++ c :: b) = a :: split_on c b.
Proof.
  induction a as [|x a IH]; intros H; cbn [app split_on]; [now rewrite N.eqb_refl|].
  destruct (N.eqb_spec x c) as [->|Hx]; [exfalso; apply H; left; reflexivity|]. rewrite IH by (intros Hc; apply H; right; exact Hc). reflexivity.
Qed.
Lemma split_none c a : ~ In c a -> split_on c a = [a].
Proof.
  induction a as [|x a IH]; intros H; [reflexivity|]. cbn [split_on].
  destruct (N.eqb_spec x c) as [->|Hx]; [exfalso; apply H; left; reflexivity|]. rewrite IH by (intros Hc; apply H; right; exact Hc). reflexivity.
Qed.
Lemma starts_with_app p l : starts_with p l = true -> exists r, l = p ++ r.
Proof.
  revert l. induction p as [|x p IH]; intros [|y l] H; cbn in *; try discriminate; [eauto|eauto|].
  apply andb_prop in H as [E H]. apply N.eqb_eq in E as ->. destruct (IH l H) as [r ->]. eauto.
Qed.
Lemma contains_app p l : contains p l = true -> exists a b, l = a ++ p ++ b.
Proof.
  induction l as [|x l IH]; intros H; cbn [contains] in H; apply Bool.orb_prop in H as [H|H].
  - apply starts_with_app in H as [r E]. exists [], r. exact E.
  - discriminate.
  - apply starts_with_app in H as [r E]. exists [], r. exact E.
  - destruct (IH H) as (a & b & ->). exists (x :: a), b. reflexivity.
Qed.
Lemma starts_with_self p l : starts_with p (p ++ l) = true.
Proof. induction p as [|x p IH]; [destruct l; reflexivity|]. cbn. now rewrite N.eqb_refl, IH. Qed.
Lemma contains_start p l : contains p (p ++ l) = true.
Proof. assert (H := starts_with_self p l). destruct (p ++ l) as [|x r]; cbn [contains]; rewrite H; reflexivity. Qed.

Lemma split_two l a b : l = a ++ 32%N :: b -> exists w0 w1 ws, split_on 32 l = w0 :: w1 :: ws.
Proof.
  intros E. destruct (split_on 32 l) as [|w0 [|w1 ws]] eqn:S; [apply split_nonnil in S as []| |eauto].
  exfalso. assert (J := join_split 32 l). rewrite S in J. cbn in J.
  apply (split_free 32 l w0); [rewrite S; left; reflexivity|]. rewrite J, E. apply in_or_app. right; left; reflexivity.
Qed.

(** The lines of a text are unique. *)
Lemma lines_unique text ls : lines_of text ls -> ls = filter (fun l => match l with [] => false | _ => true end) (split_on 10 text).
Proof.
  induction 1 as [|text ls H IH|l Hl Hn|l text ls Hl Hn H IH].
  - reflexivity.
  - cbn [split_on]. rewrite N.eqb_refl. exact IH.
  - rewrite split_none by exact Hn. destruct l; [congruence|reflexivity].
  - rewrite split_app by exact Hn. cbn [filter]. rewrite <- IH. destruct l; [congruence|reflexivity].
Qed.

Section Patch.
  Variables (common : list pystr) (package : pystr).
  Hypothesis Hpackage : ~ In 10%N package.
  Hypothesis Hcommon : forall m, In m common -> ~ In 10%N m.
  Hypothesis Hspace : forall m, In m common -> ~ In 32%N m.

  Definition new_line (l : pystr) : pystr := match patch_line common package l with Ok l' => l' | Err _ => l end.
  Lemma patch_line_ok l : patch_line common package l = Ok (new_line l).
  Proof.
    unfold new_line, patch_line. destruct (contains (str "import ") l) eqn:E; [|reflexivity].
    apply contains_app in E as (a & b & E). destruct (split_two l (a ++ str "import") b) as (w0 & w1 & ws & ->); [|reflexivity].
    rewrite E. change (str "import ") with (str "import" ++ [32%N]). rewrite <- !app_assoc. reflexivity.
  Qed.
  Lemma mapM_patch ls : mapM (patch_line common package) ls = Ok (map new_line ls).
  Proof. induction ls as [|l ls IH]; [reflexivity|]. cbn [mapM map]. rewrite patch_line_ok. cbn [bind]. rewrite IH. reflexivity. Qed.

  Lemma join_cons2 c w (ws : list pystr) : ws <> [] -> join_with c (w :: ws) = w ++ c :: join_with c ws.
  Proof. destruct ws; [congruence|reflexivity]. Qed.
  Lemma new_line_shape l : new_line l = l \/ exists w m rest, In m common /\ ~ In 32%N w /\ l = w ++ 32%N :: m ++ rest /\
     (rest = [] \/ exists r, rest = 32%N :: r) /\ new_line l = w ++ 32%N :: package ++ str ".models." ++ m ++ rest.
  Proof.
    unfold new_line, patch_line. destruct (contains (str "import ") l) eqn:E; [|left; reflexivity].
    destruct (split_on 32 l) as [|w0 [|w1 ws]] eqn:S; [left; reflexivity|left; reflexivity|].
    assert (J := join_split 32 l). rewrite S in J. destruct (existsb (str_eqb w1) common) eqn:X; [|left; exact J]. right.
    apply existsb_exists in X as (m & Hm & Em). unfold str_eqb in Em. destruct (str_eq_dec w1 m) as [<-|]; [|discriminate].
    exists w0, w1. rewrite !join_cons2 in * by discriminate.
    assert (F : ~ In 32%N w0) by (apply (split_free 32 l); rewrite S; left; reflexivity).
    destruct ws as [|w2 ws].
    - exists []. cbn [join_with] in *. rewrite app_nil_r. split; [exact Hm|]. split; [exact F|]. split; [now rewrite J|]. split; [auto|reflexivity].
    - exists (32%N :: join_with 32 (w2 :: ws)). rewrite join_cons2 in J by discriminate. split; [exact Hm|]. split; [exact F|]. split; [now rewrite J|].
      split; [right; eauto|]. rewrite join_cons2 by discriminate. rewrite <- !app_assoc. reflexivity.
  Qed.
  Lemma contains_has l : contains (str "import ") l = true <-> has_import l.
  Proof.
    split; [apply contains_app|]. intros (a & b & ->). induction a as [|x a IH]; [exact (contains_start (str "import ") b)|].
    cbn [app contains]. rewrite IH. apply Bool.orb_true_r.
  Qed.
  Lemma new_line_none l : ~ has_import l -> new_line l = l.
  Proof. intros H. unfold new_line, patch_line. destruct (contains (str "import ") l) eqn:E; [|reflexivity]. apply contains_has in E. contradiction. Qed.
  Lemma new_line_mod l w m r : In m common -> ~ In 32%N w -> has_import l -> l = w ++ 32%N :: m ++ 32%N :: r ->
    new_line l = w ++ 32%N :: package ++ str ".models." ++ m ++ 32%N :: r.
  Proof.
    intros Hm Hw Hi E. unfold new_line, patch_line. apply contains_has in Hi. rewrite Hi.
    assert (S : split_on 32 l = w :: m :: split_on 32 r) by (rewrite E, split_app by exact Hw; now rewrite split_app by (apply Hspace, Hm)).
    rewrite S. assert (X : existsb (str_eqb m) common = true).
    { apply existsb_exists. exists m. split; [exact Hm|]. unfold str_eqb. destruct (str_eq_dec m m); [reflexivity|congruence]. }
    rewrite X. rewrite !join_cons2 by (try discriminate; apply split_nonnil). rewrite join_split, <- !app_assoc. reflexivity.
  Qed.
  Lemma has_import_nl l : has_import (l ++ [10%N]) <-> has_import l.
  Proof.
    split; intros (a & b & E); [|exists a, (b ++ [10%N]); rewrite E, <- !app_assoc; reflexivity].
    destruct b as [|x b _] using rev_ind.
    - exfalso. rewrite app_nil_r in E. change (str "import ") with (str "import" ++ [32%N]) in E. rewrite app_assoc in E.
      apply app_inj_tail in E as [_ E]. discriminate.
    - exists a, b. rewrite !app_assoc in E. apply app_inj_tail in E as [E _]. rewrite E, <- app_assoc. reflexivity.
  Qed.
  Lemma not10 (s : pystr) x : existsb (N.eqb x) s = false -> ~ In x s.
  Proof. intros H Hin. assert (T : existsb (N.eqb x) s = true) by (apply existsb_exists; exists x; rewrite N.eqb_refl; auto). congruence. Qed.
  (** A line with its newline: the patch works on the line. *)
  Lemma new_line_nl l : ~ In 10%N l -> exists l', new_line (l ++ [10%N]) = l' ++ [10%N] /\ patched common package l l' /\ ~ In 10%N l' /\ (l = [] <-> l' = []).
  Proof.
    intros Hl. destruct (new_line_shape (l ++ [10%N])) as [->|(w & m & rest & Hm & Hw & E & Hr & ->)].
    - exists l. split; [reflexivity|]. split; [left; reflexivity|]. tauto.
    - assert (Hrest : exists r, rest = r ++ [10%N] /\ l = w ++ 32%N :: m ++ r).
      { destruct rest as [|x rest'] using rev_ind.
        - exfalso. rewrite app_nil_r in E. destruct m as [|y m'] using rev_ind.
          + change (w ++ [32%N]) with (w ++ [32%N]) in E. apply app_inj_tail in E as [_ E]. discriminate.
          + assert (E' : l ++ [10%N] = (w ++ 32%N :: m') ++ [y]) by (rewrite E, <- app_assoc; reflexivity).
            apply app_inj_tail in E' as [_ <-]. apply (Hcommon _ Hm), in_or_app. right; left; reflexivity.
        - assert (E' : l ++ [10%N] = (w ++ 32%N :: m ++ rest') ++ [x]).
          { rewrite E, <- app_assoc. cbn [app]. do 2 f_equal. rewrite app_assoc. reflexivity. }
          apply app_inj_tail in E' as [E1 E2]. exists rest'. rewrite E1, E2. auto. }
      destruct Hrest as (r & -> & ->). exists (w ++ 32%N :: package ++ str ".models." ++ m ++ r).
      assert (Hr' : r = [] \/ exists q, r = 32%N :: q).
      { destruct Hr as [Hr|[q Hq]]; [destruct r; discriminate|]. destruct r as [|x r]; [left; reflexivity|]. cbn in Hq. injection Hq as -> _. right. eauto. }
      split; [rewrite <- !app_assoc; cbn [app]; rewrite <- !app_assoc; reflexivity|].
      split; [right; exists w, m, r; auto|].
      split.
      + intros Hin. apply in_app_iff in Hin as [Hin|Hin]; [apply Hl; apply in_or_app; left; exact Hin|].
        destruct Hin as [Hin|Hin]; [discriminate|]. apply in_app_iff in Hin as [Hin|Hin]; [exact (Hpackage Hin)|].
        apply in_app_iff in Hin as [Hin|Hin]; [revert Hin; apply not10; reflexivity|].
        apply Hl. apply in_or_app. right. right. exact Hin.
      + split; intros X; apply app_eq_nil in X as [_ X]; discriminate.
  Qed.
  Lemma new_line_end l : ~ In 10%N l -> patched common package l (new_line l) /\ ~ In 10%N (new_line l) /\ (l = [] <-> new_line l = []).
  Proof.
    intros Hl. destruct (new_line_shape l) as [E|(w & m & rest & Hm & Hw & E & Hr & ->)].
    - rewrite E. split; [left; reflexivity|tauto].
    - split; [right; exists w, m, rest; auto|]. split.
      + intros Hin. apply in_app_iff in Hin as [Hin|Hin]; [apply Hl; rewrite E; apply in_or_app; left; exact Hin|].
        destruct Hin as [Hin|Hin]; [discriminate|]. apply in_app_iff in Hin as [Hin|Hin]; [exact (Hpackage Hin)|].
        apply in_app_iff in Hin as [Hin|Hin]; [revert Hin; apply not10; reflexivity|].
        apply Hl. rewrite E. apply in_or_app. right. right. exact Hin.
      + split; intros X; [rewrite E in X|]; apply app_eq_nil in X as [_ X]; discriminate.
  Qed.

  Lemma new_line_nl_full l : ~ In 10%N l -> exists l', new_line (l ++ [10%N]) = l' ++ [10%N] /\ patched_line common package l l' /\ ~ In 10%N l' /\ (l = [] <-> l' = []).
  Proof.
    intros Hl. destruct (new_line_nl l Hl) as (l' & E & HP & H). exists l'. split; [exact E|]. split; [|exact H]. split; [exact HP|]. split.
    - intros Hi. rewrite new_line_none in E by (rewrite has_import_nl; exact Hi). apply app_inj_tail in E as [E _]. auto.
    - intros w m r Hm Hw Hi El. rewrite (new_line_mod _ w m (r ++ [10%N]) Hm Hw) in E.
      + apply (app_inv_tail [10%N]). rewrite <- E, <- !app_assoc. cbn [app]. rewrite <- !app_assoc. reflexivity.
      + apply has_import_nl. exact Hi.
      + rewrite El, <- !app_assoc. cbn [app]. rewrite <- !app_assoc. reflexivity.
  Qed.
  Lemma new_line_end_full l : ~ In 10%N l -> patched_line common package l (new_line l) /\ ~ In 10%N (new_line l) /\ (l = [] <-> new_line l = []).
  Proof.
    intros Hl. destruct (new_line_end l Hl) as (HP & H). split; [|exact H]. split; [exact HP|]. split; [apply new_line_none|].
    intros w m r Hm Hw Hi El. apply new_line_mod; assumption.
  Qed.

  Lemma readlines_line s text : ~ In 10%N s -> readlines (s ++ 10%N :: text) = (s ++ [10%N]) :: readlines text.
  Proof.
    intros H. unfold readlines. rewrite split_app by exact H. pose proof (split_nonnil 10 text) as Hn.
    destruct (split_on 10 text) as [|w ws]; [congruence|]. reflexivity.
  Qed.
  Lemma readlines_end s : ~ In 10%N s -> readlines s = match s with [] => [] | _ => [s] end.
  Proof. intros H. unfold readlines. rewrite split_none by exact H. destruct s; reflexivity. Qed.

  Lemma first_newline (text : pystr) : ~ In 10%N text \/ exists s r, text = s ++ 10%N :: r /\ ~ In 10%N s.
  Proof.
    induction text as [|c text [IH|(s & r & -> & Hs)]]; [left; intros []| |].
    - destruct (N.eq_dec c 10) as [->|Hc]; [right; exists [], text; split; [reflexivity|intros []]|].
      left. intros [E|E]; [congruence|contradiction].
    - destruct (N.eq_dec c 10) as [->|Hc]; [right; exists [], (s ++ 10%N :: r); split; [reflexivity|intros []]|].
      right. exists (c :: s), r. split; [reflexivity|]. intros [E|E]; [congruence|contradiction].
  Qed.
  (** The lines of what is written. *)
  Lemma join_lines ls text : lines_of text ls -> forall w, w = [] \/ (w <> [] /\ ~ In 10%N w) ->
    lines_of (w ++ [10%N] ++ 10%N :: text) (match w with [] => ls | _ => w :: ls end).
  Proof.
    intros H w [->|[Hw Hn]]; cbn [app].
    - constructor. constructor. exact H.
    - destruct w as [|c w]; [congruence|]. apply (lo_line (c :: w)); [exact Hw|exact Hn|]. constructor. exact H.
  Qed.
  Lemma patch_text_lines : forall n text, length text <= n -> exists text' ls ls',
    patch_text common package text = Ok text' /\ lines_of text ls /\ lines_of text' ls' /\ Forall2 (patched_line common package) ls ls'.
  Proof.
    induction n as [|n IH]; intros text Hn.
    - destruct text; [|cbn in Hn; lia]. exists [], [], []. split; [reflexivity|]. repeat constructor.
    - unfold patch_text. destruct (first_newline text) as [Hf|(s & r & -> & Hs)].
      + rewrite (readlines_end text Hf). destruct text as [|c t]; [exists [], [], []; split; [reflexivity|]; repeat constructor|].
        rewrite mapM_patch. cbn [bind map join_with]. destruct (new_line_end_full (c :: t) Hf) as (HP & H10 & Hnil).
        exists (new_line (c :: t)), [c :: t], [new_line (c :: t)]. split; [reflexivity|].
        split; [constructor; [discriminate|exact Hf]|]. split; [constructor; [|exact H10]; intros X; apply Hnil in X; discriminate|]. constructor; [exact HP|constructor].
      + rewrite app_length in Hn. cbn in Hn. destruct (IH r ltac:(lia)) as (text' & ls & ls' & E & H1 & H2 & HF).
        unfold patch_text in E. rewrite mapM_patch in E. cbn [bind] in E. injection E as E.
        rewrite (readlines_line s r Hs), mapM_patch. cbn [bind map].
        destruct (new_line_nl_full s Hs) as (s' & -> & HP & H10 & Hnil).
        exists (join_with 10 ((s' ++ [10%N]) :: map new_line (readlines r))). 
        assert (Hls : lines_of (s ++ 10%N :: r) (match s with [] => ls | _ => s :: ls end)).
        { destruct s as [|c s]; [constructor; exact H1|]. apply (lo_line (c :: s)); [discriminate|exact Hs|exact H1]. }
        destruct (map new_line (readlines r)) as [|x xs] eqn:M.
        * cbn [join_with] in E. subst text'. apply lines_unique in H2. cbn in H2. subst ls'. inversion HF; subst. cbn [join_with].
          exists (match s with [] => [] | _ => [s] end), (match s' with [] => [] | _ => [s'] end).
          split; [reflexivity|]. split; [exact Hls|]. split.
          -- destruct s' as [|c s']; [repeat constructor|]. apply (lo_line (c :: s')); [discriminate|exact H10|constructor].
          -- destruct s, s'; [constructor| | |constructor; [exact HP|constructor]]; exfalso; destruct Hnil as [A B]; [discriminate (A eq_refl)|discriminate (B eq_refl)].
        * assert (EJ : join_with 10 ((s' ++ [10%N]) :: x :: xs) = (s' ++ [10%N]) ++ 10%N :: text') by (rewrite join_cons2, E by discriminate; reflexivity).
          exists (match s with [] => ls | _ => s :: ls end), (match s' with [] => ls' | _ => s' :: ls' end).
          split; [reflexivity|]. split; [exact Hls|]. split.
          -- rewrite EJ, <- app_assoc. apply (join_lines ls' text' H2 s'). destruct s'; [left; reflexivity|right; split; [discriminate|exact H10]].
          -- destruct s, s'; [exact HF| | |constructor; [exact HP|exact HF]]; exfalso; destruct Hnil as [A B]; [discriminate (A eq_refl)|discriminate (B eq_refl)].
  Qed.
End Patch.
