From Verif Require Import Py PyFacts LogModel TextModel TextSpec.

Lemma starts_with_spec p s : starts_with p s = true <-> exists b, s = p ++ b.
Proof.
  revert s; induction p as [|a p IH]; intros s; cbn.
  - split; [intros _; exists s; reflexivity|reflexivity].
  - destruct s as [|c s]; [split; [discriminate|intros [b H]; discriminate]|].
    rewrite andb_true_iff, N.eqb_eq, IH. split.
    + intros [-> [b ->]]. exists b. reflexivity.
    + intros [b H]. injection H as -> ->. eauto.
Qed.

Lemma split_skip sep a s cur : split_go sep (a ++ s) (length a) cur = split_go sep s 0 cur.
Proof. induction a as [|c a IH]; [reflexivity|]. cbn [app length split_go]. exact IH. Qed.

Lemma split_at_sep sep s cur : sep <> [] -> split_go sep (sep ++ s) 0 cur = cur :: split_go sep s 0 [].
Proof.
  intros H. destruct sep as [|c sep]; [congruence|]. cbn [app]. cbn [split_go].
  assert (E : starts_with (c :: sep) (c :: sep ++ s) = true) by (apply starts_with_spec; exists s; reflexivity).
  rewrite E. cbn [length]. rewrite Nat.sub_succ, Nat.sub_0_r, split_skip. reflexivity.
Qed.

Lemma occurs_at_cons sep c s i : occurs_at sep s i -> occurs_at sep (c :: s) (S i).
Proof. intros [a [b [-> H]]]. exists (c :: a), b. cbn. auto. Qed.

Lemma split_piece sep x rest cur : (forall i, i < length x -> ~ occurs_at sep (x ++ rest) i) ->
  split_go sep (x ++ rest) 0 cur = split_go sep rest 0 (cur ++ x).
Proof.
  revert cur; induction x as [|c x IH]; intros cur H; [rewrite app_nil_r; reflexivity|].
  cbn [app split_go]. destruct (starts_with sep (c :: x ++ rest)) eqn:E.
  - exfalso. apply starts_with_spec in E. destruct E as [b Hb]. apply (H 0); [cbn; lia|]. exists [], b. auto.
  - rewrite IH; [rewrite <- app_assoc; reflexivity|]. intros i Hi Ho. apply (H (S i)); [cbn; lia|]. apply occurs_at_cons. exact Ho.
Qed.

(** an occurrence starting inside x ends inside x ++ sep *)
Lemma occurs_local sep x rest i : i < length x -> occurs_at sep (x ++ sep ++ rest) i -> occurs_at sep (x ++ sep) i.
Proof.
  intros Hi [a [b [H Ha]]]. exists a. rewrite (app_assoc x), app_assoc in H.
  assert (Hl : length (a ++ sep) <= length (x ++ sep)) by (rewrite !app_length; lia).
  assert (E : firstn (length (x ++ sep)) ((x ++ sep) ++ rest) = x ++ sep).
  { rewrite firstn_app, Nat.sub_diag, firstn_all, app_nil_r. reflexivity. }
  rewrite H in E. rewrite firstn_app, (firstn_all2 (n := length (x ++ sep)) (a ++ sep)) in E by exact Hl.
  eexists. split; [|exact Ha]. rewrite <- E, <- app_assoc. reflexivity.
Qed.

Lemma split_joined sep l : sep <> [] -> splittable sep l -> split_go sep (joined sep l) 0 [] = l.
Proof.
  intros Hs. induction l as [|x l IH]; intros H; [destruct H|]. destruct l as [|y l].
  - cbn [joined]. cbn in H. rewrite <- (app_nil_r x) at 1. rewrite split_piece; [reflexivity|].
    intros i _ Ho. apply H. exists i. rewrite app_nil_r in Ho. exact Ho.
  - change (joined sep (x :: y :: l)) with (x ++ sep ++ joined sep (y :: l)). destruct H as [Hc H].
    rewrite split_piece.
    + cbn [app]. rewrite split_at_sep by exact Hs. f_equal. apply IH. exact H.
    + intros i Hi Ho. apply (Hc i Hi). eapply occurs_local; eassumption.
Qed.

Lemma joined_cons sep x l : l <> [] -> joined sep (x :: l) = x ++ sep ++ joined sep l.
Proof. destruct l; [congruence|reflexivity]. Qed.

Lemma joined_cons2 sep x y l : joined sep (x :: y :: l) = x ++ sep ++ joined sep (y :: l).
Proof. reflexivity. Qed.

Lemma split_go_nonempty sep s skip cur : split_go sep s skip cur <> [].
Proof. revert skip cur; induction s as [|c s IH]; intros skip cur; cbn [split_go]; [discriminate|]. destruct skip; [|apply IH]. destruct (starts_with _ _); [discriminate|apply IH]. Qed.

Lemma joined_split sep s : sep <> [] -> forall skip cur, skip <= length s ->
  joined sep (split_go sep s skip cur) = cur ++ skipn skip s.
Proof.
  intros Hs. induction s as [|c s IH]; intros skip cur Hk.
  - cbn in Hk. replace skip with 0 by lia. cbn. rewrite app_nil_r. reflexivity.
  - cbn [split_go]. destruct skip as [|k]; [|cbn [skipn]; apply IH; cbn in Hk; lia].
    destruct (starts_with sep (c :: s)) eqn:E.
    + apply starts_with_spec in E. destruct E as [b Hb]. destruct sep as [|d sep]; [congruence|]. cbn in Hb. injection Hb as -> ->.
      rewrite joined_cons by apply split_go_nonempty. rewrite IH by (cbn; rewrite app_length; lia).
      cbn [length skipn app]. rewrite Nat.sub_succ, Nat.sub_0_r, skipn_app, skipn_all, Nat.sub_diag. reflexivity.
    + rewrite IH by lia. cbn [skipn]. rewrite <- app_assoc. reflexivity.
Qed.

(* ---- single-character separators ---- *)
Lemma contains_single c x : contains [c] x <-> In c x.
Proof.
  split.
  - intros [i [a [b [-> _]]]]. apply in_or_app; right; left; reflexivity.
  - intros H. apply in_split in H. destruct H as [a [b ->]]. exists (length a), a, b. auto.
Qed.

Lemma clean_single c x : clean [c] x <-> ~ In c x.
Proof.
  split.
  - intros H Hin. apply in_split in Hin. destruct Hin as [a [b ->]]. apply (H (length a)).
    + rewrite app_length. cbn. lia.
    + exists a, (b ++ [c]). rewrite <- app_assoc. auto.
  - intros H i Hi [a [b [E Ha]]]. apply H. assert (Hn : nth_error (x ++ [c]) i = Some c).
    { rewrite E, nth_error_app2 by lia. rewrite Ha, Nat.sub_diag. reflexivity. }
    rewrite nth_error_app1 in Hn by exact Hi. eapply nth_error_In; exact Hn.
Qed.

Lemma splittable_single c l : splittable [c] l <-> l <> [] /\ forall x, In x l -> ~ In c x.
Proof.
  induction l as [|x l IH]; [split; [intros []|intros [H _]; congruence]|]. destruct l as [|y l].
  - cbn [splittable]. rewrite contains_single. split; [intros H; split; [discriminate|intros z [<-|[]]; exact H]|intros [_ H]; apply H; left; reflexivity].
  - change (splittable [c] (x :: y :: l)) with (clean [c] x /\ splittable [c] (y :: l)). rewrite clean_single, IH. split.
    + intros [H [_ H']]. split; [discriminate|]. intros z [<-|Hz]; [exact H|apply H'; exact Hz].
    + intros [_ H]. split; [apply H; left; reflexivity|]. split; [discriminate|]. intros z Hz. apply H. right; exact Hz.
Qed.

(* ---- serialisation ---- *)
Lemma serialize_events_eq es : forall events ns i r,
  Forall2 (fun e n => eget e concept_name = Some (VStr n)) events ns ->
  serialize_events es i events r =
  Ok (r ++ match ns with [] => [] | _ => (if 0 <? i then es else []) ++ joined es ns end).
Proof.
  induction events as [|e events IH]; intros ns i r H; inversion H as [|? n ? ns' He Hr]; subst.
  - cbn. rewrite app_nil_r. reflexivity.
  - cbn [serialize_events]. unfold event_name, egetitem, dgetitem. unfold eget in He. rewrite He. cbn [bind].
    rewrite (IH ns' (S i) _ Hr). change (0 <? S i) with true. f_equal. destruct ns' as [|m ns'].
    + rewrite app_nil_r. cbn [joined]. destruct (0 <? i); cbn [app]; rewrite <- ?app_assoc; reflexivity.
    + rewrite joined_cons2. destruct (0 <? i); cbn [app]; rewrite <- ?app_assoc; reflexivity.
Qed.

Lemma serialize_traces_eq ts es : forall traces names i len r,
  Forall2 (fun t ns => Forall2 (fun e n => eget e concept_name = Some (VStr n)) (t_events t) ns) traces names ->
  len = i + length traces ->
  serialize_traces ts es len i traces r = Ok (r ++ joined ts (map (joined es) names)).
Proof.
  induction traces as [|t traces IH]; intros names i len r H Hl; inversion H as [|? ns ? names' Ht Hr]; subst.
  - cbn. rewrite app_nil_r. reflexivity.
  - cbn [serialize_traces]. rewrite (serialize_events_eq es _ ns 0 r Ht). change (0 <? 0) with false. cbn [bind app].
    rewrite (IH names' (S i)) by (try exact Hr; cbn; lia). f_equal. cbn [map].
    assert (E : (match ns with [] => [] | _ :: _ => joined es ns end) = joined es ns) by (destruct ns; reflexivity).
    rewrite E. inversion Hr as [|? ? ? ? ? Hr']; subst; cbn [length map].
    + destruct (Z.ltb_spec (Z.of_nat i) (Z.of_nat (i + 1) - 1)); [lia|]. cbn [joined]. rewrite app_nil_r. reflexivity.
    + destruct (Z.ltb_spec (Z.of_nat i) (Z.of_nat (i + S (S (length l))) - 1)); [|lia].
      rewrite joined_cons2. rewrite <- !app_assoc. reflexivity.
Qed.

Lemma serialize_log_eq log names ts es : log_names log names ->
  serialize_log log ts es = Ok (joined ts (map (joined es) names)).
Proof. intros H. unfold serialize_log. rewrite (serialize_traces_eq ts es _ names 0 _ [] H); reflexivity. Qed.

Lemma log_names_of_names names : log_names (log_of_names names) names.
Proof.
  unfold log_names, log_of_names. cbn [l_traces log_of_traces].
  induction names as [|t names IH]; cbn; constructor; [|exact IH]. cbn. clear. induction t; cbn; constructor; auto.
Qed.

Lemma parse_strings_eq strs sep : sep <> [] ->
  parse_log_from_strings strs sep = Ok (log_of_names (map (fun s => split_go sep s 0 []) strs)).
Proof.
  intros Hs. unfold parse_log_from_strings, parse_trace_from_string, py_split. destruct sep as [|c sep]; [congruence|]. cbn [bind].
  rewrite (mapM_ok _ (fun s => trace_of_events (map (fun part => [(concept_name, VStr part)]) (split_go (c :: sep) s 0 [])))) by reflexivity.
  cbn [bind]. unfold log_of_names. rewrite map_map. reflexivity.
Qed.

Lemma round_trip_proof log names ts es :
  ts <> [] -> es <> [] -> log_names log names ->
  splittable ts (map (joined es) names) -> (forall t, In t names -> splittable es t) ->
  exists text lines, serialize_log log ts es = Ok text /\ py_split text ts = Ok lines /\
    parse_log_from_strings lines es = Ok (log_of_names names).
Proof.
  intros Ht He Hn Hs Hes. exists (joined ts (map (joined es) names)), (map (joined es) names).
  split; [apply serialize_log_eq; exact Hn|]. split.
  - unfold py_split. destruct ts; [congruence|]. f_equal. apply split_joined; [exact Ht|exact Hs].
  - rewrite parse_strings_eq by exact He. rewrite map_map. do 2 f_equal. rewrite <- (map_id names) at 2. apply map_ext_in.
    intros t Hin. apply split_joined; [exact He|apply Hes; exact Hin].
Qed.

Lemma In_joined c sep l : In c (joined sep l) -> In c sep \/ exists x, In x l /\ In c x.
Proof.
  induction l as [|x l IH]; [intros []|]. destruct l as [|y l].
  - cbn. intros H. right. exists x. auto.
  - rewrite joined_cons2. intros H. apply in_app_or in H. destruct H as [H|H]; [right; exists x; split; [left; reflexivity|exact H]|].
    apply in_app_or in H. destruct H as [H|H]; [left; exact H|]. destruct (IH H) as [H'|[z [H1 H2]]]; [left; exact H'|right; exists z; split; [right; exact H1|exact H2]].
Qed.

Lemma round_trip_single_proof log names ts es :
  ts <> es -> log_names log names -> names <> [] ->
  (forall t, In t names -> t <> []) ->
  (forall t n, In t names -> In n t -> ~ In ts n /\ ~ In es n) ->
  exists text lines, serialize_log log [ts] [es] = Ok text /\ py_split text [ts] = Ok lines /\
    parse_log_from_strings lines [es] = Ok (log_of_names names).
Proof.
  intros Hne Hn H0 Ht Hc. apply round_trip_proof; [discriminate|discriminate|exact Hn| |].
  - apply splittable_single. split; [destruct names; [congruence|discriminate]|]. intros x Hx Hin. apply in_map_iff in Hx. destruct Hx as [t [<- Hin']].
    apply In_joined in Hin. destruct Hin as [[Hin|[]]|[n [Hn1 Hn2]]]; [congruence|]. destruct (Hc t n Hin' Hn1) as [Hc1 _]. exact (Hc1 Hn2).
  - intros t Hin. apply splittable_single. split; [apply Ht; exact Hin|]. intros n Hn' Hin'. destruct (Hc t n Hin Hn') as [_ Hc2]. exact (Hc2 Hin').
Qed.

Lemma parse_serialize_proof strs ts sep : sep <> [] ->
  exists log, parse_log_from_strings strs sep = Ok log /\ serialize_log log ts sep = Ok (joined ts strs).
Proof.
  intros Hs. eexists. split; [apply parse_strings_eq; exact Hs|].
  rewrite (serialize_log_eq _ _ ts sep (log_names_of_names _)). do 2 f_equal. rewrite map_map. rewrite <- (map_id strs) at 2. apply map_ext.
  intros s. rewrite joined_split by (try exact Hs; lia). reflexivity.
Qed.

Lemma serialize_logs_proof ls ts es : forall logs namess, Forall2 log_names logs namess ->
  serialize_logs logs ls ts es = Ok (joined ls (map (fun names => joined ts (map (joined es) names)) namess)).
Proof.
  intros logs namess H. unfold serialize_logs.
  assert (G : forall logs namess i r, Forall2 log_names logs namess ->
    serialize_logs_from i logs ls ts es r = Ok (r ++ match namess with [] => [] | _ => (if 0 <? i then ls else []) ++ joined ls (map (fun names => joined ts (map (joined es) names)) namess) end)).
  { clear. induction logs as [|log logs IH]; intros namess i r H; inversion H as [|? names ? namess' Hl Hr]; subst.
    - cbn. rewrite app_nil_r. reflexivity.
    - cbn [serialize_logs_from]. rewrite (serialize_log_eq _ _ ts es Hl). cbn [bind]. rewrite (IH namess' (S i) _ Hr). change (0 <? S i) with true. cbn [map]. f_equal.
      destruct namess' as [|m ms].
      + rewrite app_nil_r. cbn [joined map]. destruct (0 <? i); cbn [app]; rewrite <- ?app_assoc; reflexivity.
      + cbn [map]; rewrite joined_cons2. destruct (0 <? i); cbn [app]; rewrite <- ?app_assoc; reflexivity. }
  rewrite (G logs namess 0 [] H). destruct namess; reflexivity.
Qed.

(** exactness: if splitting recovers the pieces, they were splittable *)
Lemma split_go_acc sep s : forall skip cur, exists h r, split_go sep s skip [] = h :: r /\ split_go sep s skip cur = (cur ++ h) :: r.
Proof.
  induction s as [|c s IH]; intros skip cur.
  - exists [], []. cbn. rewrite app_nil_r. auto.
  - cbn [split_go]. destruct skip as [|k]; [|apply IH]. destruct (starts_with sep (c :: s)).
    + exists [], (split_go sep s (length sep - 1) []). rewrite app_nil_r. auto.
    + destruct (IH 0 [c]) as [h [r [E1 E2]]]. destruct (IH 0 (cur ++ [c])) as [h' [r' [E1' E2']]].
      rewrite E1 in E1'. injection E1' as <- <-. cbn [app]. exists (c :: h), r. split; [exact E2|]. rewrite E2', <- app_assoc. reflexivity.
Qed.

Lemma split_first sep s : sep <> [] -> forall x r, split_go sep s 0 [] = x :: r ->
  (r = [] /\ s = x /\ ~ contains sep x) \/
  (exists s', s = x ++ sep ++ s' /\ split_go sep s' 0 [] = r /\ forall i, i < length x -> ~ occurs_at sep s i).
Proof.
  intros Hs. induction s as [|c s IH]; intros x r H.
  - cbn in H. injection H as <- <-. left. split; [reflexivity|]. split; [reflexivity|]. intros [i [a [b [E _]]]].
    destruct a; [|discriminate]. destruct sep; [congruence|discriminate].
  - cbn [split_go] in H. destruct (starts_with sep (c :: s)) eqn:E.
    + apply starts_with_spec in E. destruct E as [b Hb]. injection H as <- <-. right. exists b. cbn [app length].
      split; [exact Hb|]. split; [|intros i Hi; lia].
      destruct sep as [|d sep]; [congruence|]. cbn in Hb. injection Hb as -> ->. cbn [length]. rewrite Nat.sub_succ, Nat.sub_0_r, split_skip. reflexivity.
    + destruct (split_go_acc sep s 0 [c]) as [h [t [E1 E2]]]. cbn [app] in H. rewrite E2 in H. injection H as <- <-.
      assert (H0 : ~ occurs_at sep (c :: s) 0).
      { intros [a [b [Ho Ha]]]. destruct a; [|discriminate]. assert (starts_with sep (c :: s) = true) by (apply starts_with_spec; exists b; exact Ho). congruence. }
      assert (HS : forall i, occurs_at sep (c :: s) (S i) -> occurs_at sep s i).
      { intros i [a [b [Ho Ha]]]. destruct a as [|a0 a]; [discriminate|]. cbn in Ho. injection Ho as -> ->. exists a, b. cbn in Ha. auto. }
      destruct (IH h t E1) as [[-> [-> Hc]]|[s' [-> [Hr Ho]]]].
      * left. split; [reflexivity|]. split; [reflexivity|]. intros [i Hi]. destruct i as [|i]; [apply H0; exact Hi|]. apply Hc. exists i. apply HS, Hi.
      * right. exists s'. split; [reflexivity|]. split; [exact Hr|]. intros i Hi Hoc. destruct i as [|i]; [apply H0; exact Hoc|].
        cbn in Hi. apply (Ho i); [lia|]. apply HS, Hoc.
Qed.

Lemma splittable_iff sep l : sep <> [] -> (split_go sep (joined sep l) 0 [] = l <-> splittable sep l).
Proof.
  intros Hs. split; [|apply split_joined; exact Hs]. induction l as [|x l IH]; intros H.
  - exfalso. eapply split_go_nonempty; exact H.
  - destruct (split_first sep _ Hs x l H) as [[-> [_ Hc]]|[s' [E [Hr Ho]]]]; [exact Hc|].
    destruct l as [|y l]; [exfalso; eapply split_go_nonempty; exact Hr|].
    change (splittable sep (x :: y :: l)) with (clean sep x /\ splittable sep (y :: l)). rewrite joined_cons2 in *.
    apply app_inv_head in E. apply app_inv_head in E. split.
    + intros i Hi [a [b [Ha Hl]]]. apply (Ho i Hi). exists a, (b ++ joined sep (y :: l)). split; [|exact Hl].
      rewrite app_assoc, Ha, <- !app_assoc. reflexivity.
    + apply IH. rewrite E. exact Hr.
Qed.

(** The whole round trip works exactly under the stated condition. *)
Lemma round_trip_iff_proof log names ts es :
  ts <> [] -> es <> [] -> log_names log names ->
  ((exists text lines, serialize_log log ts es = Ok text /\ py_split text ts = Ok lines /\
    parse_log_from_strings lines es = Ok (log_of_names names)) <->
   map (fun s => split_go es s 0 []) (split_go ts (joined ts (map (joined es) names)) 0 []) = names).
Proof.
  intros Ht He Hn. assert (Hp : forall s, py_split s ts = Ok (split_go ts s 0 [])) by (intros s; destruct ts; [congruence|reflexivity]).
  split.
  - intros [text [lines [H1 [H2 H3]]]]. rewrite (serialize_log_eq _ _ ts es Hn) in H1. injection H1 as <-. rewrite Hp in H2. injection H2 as <-.
    rewrite parse_strings_eq in H3 by exact He. injection H3 as H3.
    revert H3. generalize (map (fun s => split_go es s 0 []) (split_go ts (joined ts (map (joined es) names)) 0 [])). clear.
    intros l. revert names. induction l as [|a l IH]; intros [|b names]; cbn; try discriminate; [reflexivity|]. intros H. injection H as H1 H2. f_equal; [|apply IH; exact H2].
    revert b H1. clear. induction a as [|x a IH]; intros [|y b]; cbn; try discriminate; [reflexivity|]. intros H. injection H as H1 H2. f_equal; [exact H1|apply IH; exact H2].
  - intros H. eexists; eexists. split; [apply serialize_log_eq; exact Hn|]. split; [apply Hp|]. rewrite parse_strings_eq by exact He. rewrite H. reflexivity.
Qed.
