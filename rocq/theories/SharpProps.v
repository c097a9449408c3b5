(** The alpha sharp algorithm (C95). *)
From Coq Require Import Permutation Sorted.
From Verif Require Import Py PyFacts InfoModel InfoSpec InfoProofs HashModel ReplayModel RInfoModel RInfoSpec RInfoProofs AlphaModel AlphaSpec AlphaProofs AlphaProofs6 AlphaProps PlusSpec PlusProofs NfcSpec NfcProofs NfcNetProofs SharpModel SharpSpec SharpProofs.

Lemma sharp_setup ord : any_order ord -> forall log, long_enough log -> exists p, sharp_provider (r_create_from ord log false None) log = Ok p /\
  sp_info p = r_create_from ord log false None /\ forall a b, In (a, b) (sp_triangles p) <-> triangle log a b.
Proof.
  intros O log L. unfold sharp_provider, calculate_triangle_relations. destruct (triangles_proof log [] L) as (tri & E & Ht). rewrite E. cbn [bind]. eexists. split; [reflexivity|]. split; [reflexivity|].
  intros a b. cbn [sp_triangles]. rewrite Ht. cbn [In]. tauto.
Qed.
(** For every log without traces of less than two events each relation says what it is meant to say, whatever order hash tables have. *)
Theorem C95_relations : forall ord, any_order ord -> forall log, long_enough log -> exists p, sharp_provider (r_create_from ord log false None) log = Ok p /\
  (forall a b, sharp_direct p a b = true <-> sh_next log a b) /\ (forall a b, sharp_triangle p a b = true <-> triangle log a b) /\ (forall a b, sharp_romb p a b = true <-> sh_around log a b) /\
  (forall a b, sharp_causal p a b = true <-> sh_before log a b) /\ (forall a b, sharp_parallel p a b = true <-> sh_beside log a b) /\
  (forall a b, sharp_advanced ord p a b = true <-> hidden log a b) /\ (forall a b, sharp_real ord p a b = true <-> sh_before log a b /\ ~ hidden log a b) /\
  (forall a b, sharp_redundant ord p a b = true <-> spare log a b) /\ NoDup (sharp_pairs ord p) /\ (forall a b, In (a, b) (sharp_pairs ord p) <-> needed log a b).
Proof.
  intros ord O log L. destruct (sharp_setup ord O log L) as (p & E & I & T). exists p. split; [exact E|]. repeat match goal with |- _ /\ _ => split end; try apply (pairs_proof ord O log p I T); intros a b.
  - apply (sdirect_proof ord O log p I).
  - apply (striangle_proof log p T).
  - apply (sromb_proof log p T).
  - apply (scausal_proof ord O log p I T).
  - apply (sparallel_proof ord O log p I T).
  - apply (advanced_proof ord O log p I T).
  - apply (real_proof ord O log p I T).
  - apply (redundant_proof ord O log p I T).
Qed.
Print Assumptions C95_relations.
(** The first tuples are made of the needed pairs and any two names not beside each other, up to tuples with the same text.  If the
    search ends, every tuple which is left fits or has the same name twice in each pair; the names are names of the log, no two tuples
    have the same text and no two could be united; if no two of the first tuples can be united, they are the result. *)
Theorem C95_tuples : forall ord, any_order ord -> forall log, long_enough log -> exists p, sharp_provider (r_create_from ord log false None) log = Ok p /\
  let text := fun t => pairs_text (s_in t) ++ pairs_text (s_out t) in
  let first := first_sharps ord p in
  NoDup (map text first) /\
  (forall t, In t first -> exists a x y b, t = mkSharp [(a, x)] [(y, b)] /\ needed log a b /\ seen log None x /\ seen log None y /\ ~ sh_beside log x y) /\
  (forall a x y b, needed log a b -> seen log None x -> seen log None y -> ~ sh_beside log x y -> exists t, In t first /\ text t = (a ++ x) ++ (y ++ b)) /\
  (forall fuel, (forall t t', In t first -> In t' first -> t <> t' -> ~ sharp_fits log (s_in t ++ s_in t') (s_out t ++ s_out t')) -> find_sharps ord (S fuel) p = Ok first) /\
  forall fuel r, find_sharps ord fuel p = Ok r -> NoDup (map text r) /\ (first <> [] -> r <> []) /\
    (forall t, In t r -> psorted (s_in t) /\ psorted (s_out t) /\ s_in t <> [] /\ s_out t <> [] /\ of_log log (s_in t) /\ of_log log (s_out t) /\
       (sharp_fits log (s_in t) (s_out t) \/ (doubled (s_in t) /\ doubled (s_out t)))) /\
    (forall t t', In t r -> In t' r -> t <> t' -> ~ sharp_fits log (s_in t ++ s_in t') (s_out t ++ s_out t')).
Proof.
  intros ord O log L. destruct (sharp_setup ord O log L) as (p & E & I & T). exists p. split; [exact E|]. cbn zeta.
  assert (K : forall t, sharp_key t = pairs_text (s_in t) ++ pairs_text (s_out t)) by (intros t; unfold sharp_key; rewrite !pairs_text_key; reflexivity).
  assert (Km : forall l, map sharp_key l = map (fun t => pairs_text (s_in t) ++ pairs_text (s_out t)) l) by (intros l; apply map_ext, K).
  assert (Kn : forall l t t', NoDup (map sharp_key l) -> In t l -> In t' l -> t <> t' -> sharp_key t <> sharp_key t').
  { intros l t t' N Ht Ht' Ne Ek. apply In_nth_error in Ht. destruct Ht as (i & Hi). apply In_nth_error in Ht'. destruct Ht' as (j & Hj). assert (i = j) by exact (key_at sharp_key l i j t t' N Hi Hj Ek). subst j. congruence. }
  destruct (first_proof ord O log p I T) as (F1 & F2 & F3). assert (Fg := first_good ord O log p I T). split; [rewrite <- Km; exact F1|]. split; [exact F2|]. split; [|split].
  - intros a x y b H1 H2 H3 H4. destruct (F3 a x y b H1 H2 H3 H4) as (t & Ht & Et). exists t. split; [exact Ht|]. rewrite <- K, Et. unfold sharp_key. cbn. rewrite !app_nil_r. reflexivity.
  - intros fuel H. apply (search_still sharp_key sharp_eqb (sharp_merge ord p) sharp_clone ord sharp_eqb_key O); [exact F1|]. intros x y z Hx Hy Nk Z. apply (merge_some ord O log p I T) in Z. revert Z. apply H; [exact Hx|exact Hy|intros ->; congruence].
  - intros fuel r H. destruct (search_keeps sharp_key sharp_eqb (sharp_merge ord p) sharp_clone ord (sgood log) sharp_eqb_key O (merge_good ord O log p I T) (clone_good log) fuel 4000 _ r Fg F1 H) as (A & B & C & D & _).
    split; [rewrite <- Km; exact B|]. split; [exact C|]. split; [intros t Ht; exact (proj1 (Forall_forall _ _) A t Ht)|]. intros t t' Ht Ht' Ne.
    apply (merge_none ord O log p I T t t' (proj1 (Forall_forall _ _) A t Ht) (proj1 (Forall_forall _ _) A t' Ht')). intros z. apply (D t t' z Ht Ht'). exact (Kn r t t' B Ht Ht' Ne).
Qed.
Print Assumptions C95_tuples.
(** What is printed: the needed pairs, the first tuples and the tuples which are left. *)
Theorem C95_lines : forall ord, any_order ord -> forall fuel log lines, discover_sharp ord fuel log = Ok lines <->
  long_enough log /\ exists p r pairs first last, sharp_provider (r_create_from ord log false None) log = Ok p /\ find_sharps ord fuel p = Ok r /\
  pairs = ord 99 _ (sharp_pairs ord p) /\ first = ord 100 _ (first_sharps ord p) /\ last = ord 101 _ r /\
  lines = map shown_line pairs ++ map (fun t => shown (s_in t) (s_out t)) first ++ map (fun t => shown (s_in t) (s_out t)) last.
Proof.
  intros ord O fuel log lines. unfold discover_sharp.
  assert (M : forall l, map sharp_string l = map (fun t => shown (s_in t) (s_out t)) l) by (intros l; apply map_ext, shown_proof).
  assert (D : long_enough log \/ exists t, In t log /\ length t < 2).
  { clear. induction log as [|t log [IH|(u & Hu & L)]]; [left; intros ? []| |right; exists u; split; [right; exact Hu|exact L]].
    destruct (le_lt_dec 2 (length t)) as [H|H]; [left; intros u [<-|Hu]; auto|right; exists t; split; [left; reflexivity|exact H]]. }
  destruct D as [L|D].
  - destruct (loops_proof log [] (NoDup_nil _)) as (loops & El & _); [intros t Ht Z; apply L in Ht; subst t; cbn in Ht; lia|]. unfold find_transitions_one_length_loop. rewrite El. cbn [bind].
    destruct (sharp_setup ord O log L) as (p & E & _). rewrite E. cbn [bind]. destruct (find_sharps ord fuel p) as [r|e] eqn:Er; cbn [bind].
    + rewrite !M. split.
      * intros H. injection H as <-. split; [exact L|]. exists p, r. do 3 eexists. split; [reflexivity|]. split; [exact Er|]. do 3 (split; [reflexivity|]). reflexivity.
      * intros (_ & p' & r' & pairs & first & last & Ep & Er' & -> & -> & -> & ->). injection Ep as <-. assert (r' = r) by congruence. subst r'. reflexivity.
    + split; [discriminate|]. intros (_ & p' & r' & pairs & first & last & Ep & Er' & _). injection Ep as <-. congruence.
  - split.
    + intros H. exfalso. destruct (find_transitions_one_length_loop log) as [loops|e]; [|discriminate]. cbn [bind] in H. unfold sharp_provider, calculate_triangle_relations in H. rewrite (triangles_panic log D) in H. discriminate.
    + intros (L & _). exfalso. destruct D as (t & Ht & Lt). apply L in Ht. lia.
Qed.
Print Assumptions C95_lines.
Theorem C95_short_trace_panics : forall ord fuel log t, In t log -> length t < 2 -> discover_sharp ord fuel log = rpanic.
Proof.
  intros ord fuel log t Ht L. unfold discover_sharp. destruct (find_transitions_one_length_loop log) as [loops|e] eqn:E; cbn [bind].
  - unfold sharp_provider, calculate_triangle_relations. rewrite (triangles_panic log (ex_intro _ t (conj Ht L))). reflexivity.
  - assert (X : (exists t, In t log /\ t = []) \/ forall t, In t log -> t <> []).
    { clear. induction log as [|t log [IH|IH]]; [right; intros ? []|left; destruct IH as (u & Hu & E); exists u; split; [right; exact Hu|exact E]|]. destruct t as [|x t]; [left; exists []; split; [left; reflexivity|reflexivity]|].
      right. intros u [<-|Hu]; [discriminate|auto]. }
    destruct X as [X|X]; [unfold find_transitions_one_length_loop in E; rewrite (loops_panic log X) in E; injection E as <-; reflexivity|]. destruct (loops_proof log [] (NoDup_nil _) X) as (r & Er & _). unfold find_transitions_one_length_loop in E. congruence.
Qed.
Print Assumptions C95_short_trace_panics.

Definition sh_log : list (list pystr) := [[str "c"; str "a"; str "b"]; [str "c"; str "b"]].
Example C95_case : long_enough sh_log /\ match discover_sharp as_it_is 20 sh_log with
  | Ok (l :: ls) => l = str "(c, b)" /\ length ls = 18 /\ In (str "({({c}, {a})}, {({a}, {b})})") ls
  | _ => False
  end.
Proof. split; [intros t [<-|[<-|[]]]; cbn; lia|]. vm_compute. split; [reflexivity|]. split; [reflexivity|]. tauto. Qed.
Example C95_panics_case : discover_sharp as_it_is 20 [[str "a"; str "b"]; [str "a"]] = rpanic.
Proof. vm_compute. reflexivity. Qed.
(** Not true: that every tuple which is left fits.  A clone of a tuple takes the first part of each pair for the second, so a tuple
    which is not united in a round is replaced by another one: here one after b and before b, though b and b do not hide anything. *)
Definition sh_clone_log : list (list pystr) := [[str "b"; str "a"; str "c"]; [str "b"; str "b"; str "c"]].
Theorem C95_clone_refuted : ~ forall fuel log p r, long_enough log -> sharp_provider (r_create_from as_it_is log false None) log = Ok p -> find_sharps as_it_is fuel p = Ok r ->
  forall t, In t r -> sharp_fits log (s_in t) (s_out t).
Proof.
  intros H. assert (L : long_enough sh_clone_log) by (intros t [<-|[<-|[]]]; cbn; lia). destruct (C95_relations as_it_is as_it_is_any sh_clone_log L) as (p & E & _ & _ & _ & _ & _ & A & _).
  assert (A' := proj2 (A (str "b") (str "b"))). clear A.
  assert (R : match sharp_provider (r_create_from as_it_is sh_clone_log false None) sh_clone_log with
    | Ok p => match find_sharps as_it_is 30 p with Ok r => nth_error r 2 = Some (mkSharp [(str "b", str "b")] [(str "b", str "b")]) | Err _ => False end /\ sharp_advanced as_it_is p (str "b") (str "b") = false
    | Err _ => False end) by (vm_compute; auto).
  rewrite E in R. destruct R as (R & R'). destruct (find_sharps as_it_is 30 p) as [r|] eqn:Er; [|contradiction].
  destruct (H 30 sh_clone_log p r L E Er _ (nth_error_In _ _ R)) as (F & _). rewrite A' in R'; [discriminate|]. apply (F (str "b") (str "b") (str "b") (str "b")); left; reflexivity.
Qed.
Print Assumptions C95_clone_refuted.
(** Not true: that a log with hidden pairs has needed ones.  Pairs may be known from each other, and then all are left out. *)
Definition sh_gone_log : list (list pystr) :=
  [[str "c"; str "a"]; [str "c"; str "d"; str "d"]; [str "d"; str "d"; str "d"; str "e"]; [str "c"; str "e"; str "e"]; [str "a"; str "d"; str "b"; str "e"]].
Theorem C95_one_left_refuted : ~ forall log, long_enough log -> (exists a b, hidden log a b) -> exists a b, needed log a b.
Proof.
  intros H. assert (L : long_enough sh_gone_log) by (intros t [<-|[<-|[<-|[<-|[<-|[]]]]]]; cbn; lia).
  destruct (C95_relations as_it_is as_it_is_any sh_gone_log L) as (p & E & _ & _ & _ & _ & _ & A & _ & _ & _ & B).
  assert (R : match sharp_provider (r_create_from as_it_is sh_gone_log false None) sh_gone_log with
    | Ok p => sharp_pairs as_it_is p = [] /\ sharp_advanced as_it_is p (str "c") (str "e") = true
    | Err _ => False end) by (vm_compute; auto).
  rewrite E in R. destruct R as (R & R'). destruct (H sh_gone_log L) as (a & b & N); [exists (str "c"), (str "e"); apply A, R'|]. apply B in N. rewrite R in N. destruct N.
Qed.
Print Assumptions C95_one_left_refuted.
(** C95_relations, C95_tuples: c and b hide a, and no two of the nine first tuples are united. *)
Example C95_relations_case : long_enough sh_log /\ match sharp_provider (r_create_from as_it_is sh_log false None) sh_log with
  | Ok p => sharp_causal p (str "c") (str "a") = true /\ sharp_advanced as_it_is p (str "c") (str "b") = true /\ sharp_advanced as_it_is p (str "c") (str "a") = false /\
            sharp_pairs as_it_is p = [(str "c", str "b")] /\ length (first_sharps as_it_is p) = 9 /\ find_sharps as_it_is 1 p = Ok (first_sharps as_it_is p)
  | Err _ => False
  end.
Proof. split; [intros t [<-|[<-|[]]]; cbn; lia|]. vm_compute. auto 10. Qed.
