(** The search for sets of places of the alpha++ NFC algorithm (C92). *)
From Coq Require Import Permutation Sorted.
From Verif Require Import Py PyFacts InfoModel InfoSpec InfoProofs HashModel ReplayModel RInfoModel RInfoSpec RInfoProofs AlphaModel AlphaSpec AlphaProofs AlphaProofs5 AlphaProofs6 AlphaProps PlusSpec PlusProofs NfcModel NfcSpec NfcProofs NfcProofs2 NfcProps NfcNetModel NfcNetSpec NfcNetProofs NfcNetProofs2 NfcNetProofs3.

Lemma provider_facts ord : any_order ord -> forall log ign, long_enough log -> exists p0, nfc_provider (r_create_from ord log false ign) log = Ok p0 /\
  forall more, let p := with_more p0 more in np_info p = r_create_from ord log false ign /\
  (forall k c, In c (r_all_event_classes ord k (np_info p)) <-> seen log ign c).
Proof.
  intros O log ign L. destruct (C85_relations ord O log ign L) as (p0 & E & _). exists p0. split; [exact E|]. intros more.
  assert (I0 : np_info p0 = r_create_from ord log false ign) by (unfold nfc_provider in E; destruct (calculate_triangle_relations log); [injection E as <-; reflexivity|discriminate]).
  destruct (with_more_proof more p0) as (A & _). cbv zeta. rewrite A, I0. split; [reflexivity|]. intros k c.
  assert (X := classes_proof ord O log ign (mkNProv [] (r_create_from ord log false ign) [] log) eq_refl k c). exact X.
Qed.
Lemma follows_seen log a b : follows log None a b -> seen log None a /\ seen log None b.
Proof. intros H. apply follows_split in H. destruct H as (l1 & l2 & H). split; (split; [|exact I]); exists (l1 ++ a :: b :: l2); (split; [exact H|]); apply in_app_iff; cbn; tauto. Qed.
Definition text_of (t : triple) : pystr := text3 (t_a t) (t_b t) (t_c t).
Definition fits_log (log : list (list pystr)) (t : triple) : Prop := fits3 (loop_between log) (t_a t) (t_b t) (t_c t).
(** A triple has its names in ascending order; a triple is inside another one. *)
Definition in_order (t : triple) : Prop := bsorted (t_a t) /\ bsorted (t_b t) /\ bsorted (t_c t).
Definition inside (t w : triple) : Prop := incl (t_a t) (t_a w) /\ incl (t_b t) (t_b w) /\ incl (t_c t) (t_c w).

Lemma triples_setup ord : any_order ord -> forall log, long_enough log -> exists p loops, nfc_provider (r_create_from ord log false None) log = Ok p /\ find_transitions_one_length_loop log = Ok loops /\
  (forall a b c, In c loops -> (one_valid p a b c = true <-> loop_between log a b c)) /\ (forall a b c, loop_between log a b c -> In c loops) /\
  (forall a b c k, loop_between log a b c -> In a (r_all_event_classes ord k (np_info p)) /\ In b (r_all_event_classes ord k (np_info p))).
Proof.
  intros O log L. destruct (C85_relations ord O log None L) as (p & E & R). destruct (provider_facts ord O log None L) as (p' & E' & Fa). assert (p' = p) by congruence. subst p'.
  destruct (loops_proof log [] (NoDup_nil _)) as (loops & El & _ & Hl); [intros t Ht Z; apply L in Ht; subst t; cbn in Ht; lia|]. exists p, loops. split; [exact E|]. split; [exact El|].
  specialize (R []). specialize (Fa []). cbv zeta in R, Fa. cbn [with_more fold_left] in R, Fa. destruct R as (R1 & R2 & _ & R4 & R5 & _). split; [|split].
  - intros a b c Hc. apply Hl in Hc. cbn [In] in Hc. unfold one_valid, loop_between. rewrite !andb_true_iff, !(not_true _ _ (R2 _ _)), (not_true _ _ (R4 a b)), !R1, !R5. intuition auto.
  - intros a b c H. apply Hl. right. apply H.
  - intros a b c k (_ & F1 & _ & F2 & _). split; apply Fa; [apply (follows_seen _ _ _ F1)|apply (follows_seen _ _ _ F2)].
Qed.

(** For every log without traces of less than two events the search ends; every triple which is found fits, no two of them have
    the same text, and no two of them are inside a triple which fits. *)
Theorem C92_triples_end : forall ord, any_order ord -> forall log, long_enough log ->
  exists p loops fuel0 r, nfc_provider (r_create_from ord log false None) log = Ok p /\ find_transitions_one_length_loop log = Ok loops /\
  (forall fuel, fuel0 <= fuel -> find_triples ord fuel p loops = Ok r) /\
  (forall t, In t r -> in_order t /\ fits_log log t) /\ NoDup (map text_of r) /\
  (forall t t' w, In t r -> In t' r -> t <> t' -> in_order w -> fits_log log w -> inside t w -> ~ inside t' w).
Proof.
  intros ord O log L. destruct (triples_setup ord O log L) as (p & loops & E & El & V1 & V2 & V3). destruct (find_triples_any ord O p loops (loop_between log) V1 V2 V3) as (f & r & Ef & G & N & A).
  exists p, loops, f, r. do 3 (split; [assumption|]). split; [intros t Ht; exact (proj1 (Forall_forall _ _) G t Ht)|]. split; [exact N|].
  intros t t' w Ht Ht' D W1 W2 I1 I2. apply (A t t' w Ht Ht'); [|split; assumption|apply atoms3_incl, I1|apply atoms3_incl, I2].
  intros Ek. apply D. apply In_nth_error in Ht. apply In_nth_error in Ht'. destruct Ht as (i & Hi), Ht' as (j & Hj).
  assert (X : i = j). { apply (proj1 (NoDup_nth_error (map triple_key r)) N); [rewrite map_length; apply nth_error_Some; congruence|]. rewrite !nth_error_map, Hi, Hj. cbn. congruence. }
  congruence.
Qed.
Print Assumptions C92_triples_end.
(** If no two triples which fit have the same text, the search finds exactly the largest ones, each once. *)
Theorem C92_triples : forall ord, any_order ord -> forall log, long_enough log -> clear_texts (loop_between log) ->
  exists p loops fuel0 r, nfc_provider (r_create_from ord log false None) log = Ok p /\ find_transitions_one_length_loop log = Ok loops /\
  (forall fuel, fuel0 <= fuel -> find_triples ord fuel p loops = Ok r) /\ NoDup r /\
  forall t, In t r <-> in_order t /\ maximal3 (loop_between log) (t_a t) (t_b t) (t_c t).
Proof.
  intros ord O log L Cl. destruct (triples_setup ord O log L) as (p & loops & E & El & V1 & V2 & V3). destruct (find_triples_largest ord O p loops (loop_between log) V1 V2 V3 Cl) as (f & r & Ef & N & H).
  exists p, loops, f, r. auto 6.
Qed.
Print Assumptions C92_triples.
(** The triples of a log, hash tables as they are. *)
Definition log_triples (fuel : nat) (log : names_log) : result (list triple) :=
  bind (find_transitions_one_length_loop log) (fun loops => bind (nfc_provider (r_create_from as_it_is log false None) log) (fun p => find_triples as_it_is fuel p loops)).
Definition one_log : list (list pystr) := [[str "a"; str "c"; str "c"; str "b"]].
Lemma all_one (a : pystr) l : bsorted l -> l <> [] -> (forall x, In x l -> x = a) -> l = [a].
Proof.
  intros S N H. apply bsorted_ext; [exact S|apply bsorted_one|]. intros x. split; [intros Hx; left; symmetry; apply H, Hx|]. intros [<-|[]]. destruct l as [|y l]; [congruence|]. left. apply H. left. reflexivity.
Qed.
Lemma one_log_between a b c : loop_between one_log a b c -> a = str "a" /\ b = str "b" /\ c = str "c".
Proof.
  intros (_ & F1 & _ & F2 & _ & _ & (U1 & _) & (U2 & _)). unfold follows in *. cbn in F1, F2, U1, U2.
  destruct F1 as [E|[E|[E|[]]]]; inversion E; subst; destruct F2 as [E2|[E2|[E2|[]]]]; inversion E2; subst; auto; exfalso; first [apply U1; tauto|apply U2; tauto].
Qed.
Example C92_triples_case : long_enough one_log /\ clear_texts (loop_between one_log) /\ log_triples 20 one_log = Ok [mkTriple [str "a"] [str "b"] [str "c"]].
Proof.
  split; [intros t [<-|[]]; cbn; lia|]. split; [|vm_compute; reflexivity].
  assert (One : forall A B C, bsorted A -> bsorted B -> bsorted C -> fits3 (loop_between one_log) A B C -> A = [str "a"] /\ B = [str "b"] /\ C = [str "c"]).
  { intros A B C SA SB SC (NA & NB & NC & H). destruct A as [|a0 A0] eqn:Ea; [congruence|]. destruct B as [|b0 B0] eqn:Eb; [congruence|]. destruct C as [|c0 C0] eqn:Ec; [congruence|]. rewrite <- Ea, <- Eb, <- Ec in *.
    assert (Ha : In a0 A) by (rewrite Ea; left; reflexivity). assert (Hb : In b0 B) by (rewrite Eb; left; reflexivity). assert (Hc : In c0 C) by (rewrite Ec; left; reflexivity).
    split; [|split]; apply all_one; auto; intros x Hx; [apply (one_log_between x b0 c0)|apply (one_log_between a0 x c0)|apply (one_log_between a0 b0 x)]; auto. }
  intros A B C A' B' C' S1 S2 S3 S4 S5 S6 F F' _. destruct (One A B C S1 S2 S3 F) as (-> & -> & ->). destruct (One A' B' C' S4 S5 S6 F') as (-> & -> & ->). auto.
Qed.
Definition tr_log : list (list pystr) := [[str "a"; str "c"; str "c"; str "b"]; [str "a"; str "c"; str "d"]; [str "e"; str "k"; str "k"; str "b"]].
Example C92_triples_end_case : long_enough tr_log /\ log_triples 20 tr_log =
  Ok [mkTriple [str "a"] [str "b"; str "d"] [str "c"]; mkTriple [str "e"] [str "b"] [str "k"]].
Proof. split; [intros t [<-|[<-|[<-|[]]]]; cbn; lia|vm_compute; reflexivity]. Qed.
(** It is not so that the largest triples are found for every log: of two with the same text one is lost. *)
Definition lost_log : list (list pystr) := [[str "x"; str "zc"; str "zc"; str "y"]; [str "x"; str "c"; str "c"; str "yz"]].
Theorem C92_triples_refuted : exists log p loops fuel r t, long_enough log /\ nfc_provider (r_create_from as_it_is log false None) log = Ok p /\ find_transitions_one_length_loop log = Ok loops /\
  find_triples as_it_is fuel p loops = Ok r /\ in_order t /\ fits_log log t /\ ~ exists t', In t' r /\ inside t t'.
Proof.
  assert (L : long_enough lost_log) by (intros t [<-|[<-|[]]]; cbn; lia).
  destruct (nfc_provider (r_create_from as_it_is lost_log false None) lost_log) as [p|e] eqn:E; [|vm_compute in E; discriminate].
  exists lost_log, p, [str "zc"; str "c"], 20, [mkTriple [str "x"] [str "y"] [str "zc"]], (mkTriple [str "x"] [str "yz"] [str "c"]).
  split; [exact L|]. split; [exact E|]. split; [vm_compute; reflexivity|]. split; [vm_compute in E; injection E as <-; vm_compute; reflexivity|]. split; [repeat split; apply bsorted_one|]. split.
  - split; [discriminate|]. split; [discriminate|]. split; [discriminate|]. cbn [t_a t_b t_c]. intros a b c [<-|[]] [<-|[]] [<-|[]]. unfold loop_between.
    assert (T : forall a b, triangle lost_log a b -> False).
    { intros a b (l1 & l2 & H). unfold lost_log in H. cbn in H. destruct H as [H|[H|[]]]; (destruct l1 as [|u1 [|u2 [|u3 [|u4 l1]]]]; cbn in H; inversion H; subst; try discriminate; try congruence; destruct l1; discriminate). }
    split; [exists [str "x"], [str "yz"]; right; left; reflexivity|]. split; [vm_compute; tauto|]. split; [intros H; exact (T _ _ H)|]. split; [vm_compute; tauto|]. split; [intros H; exact (T _ _ H)|].
    split; [intros (H & _); vm_compute in H; intuition discriminate|]. split; split; intros H; vm_compute in H; intuition discriminate.
  - intros (t' & [<-|[]] & (_ & H & _)). destruct (H (str "yz") (or_introl eq_refl)) as [X|[]]. discriminate.
Qed.
Print Assumptions C92_triples_refuted.

(** * Pairs *)
(** For any pairs of names of the log the search for pairs of sets ends; every pair which is found fits, no two of them have the
    same list of names, and no two of them are inside a pair which fits. *)
Theorem C92_pairs_end : forall ord, any_order ord -> forall log ign w3, long_enough log -> (forall a b, In (a, b) w3 -> seen log ign a /\ seen log ign b) ->
  exists p0, nfc_provider (r_create_from ord log false ign) log = Ok p0 /\ forall more, exists fuel0 r,
  (forall fuel, fuel0 <= fuel -> find_pairs ord fuel (with_more p0 more) w3 = Ok r) /\
  (forall x, In x r -> tidy x /\ fits (fun a b => In (a, b) w3) (apart log ign) (as_left x) (as_right x)) /\ NoDup (map (fun x => as_left x ++ as_right x) r) /\
  (forall x y A B, In x r -> In y r -> x <> y -> fits (fun a b => In (a, b) w3) (apart log ign) A B ->
     ~ (incl (as_left x) A /\ incl (as_right x) B /\ incl (as_left y) A /\ incl (as_right y) B)).
Proof.
  intros ord O log ign w3 L Sn. destruct (C85_relations ord O log ign L) as (p0 & E & R). destruct (provider_facts ord O log ign L) as (p' & E' & Fa). assert (p' = p0) by congruence. subst p'.
  exists p0. split; [exact E|]. intros more. destruct (R more) as (_ & _ & _ & _ & R5 & _). destruct (Fa more) as (_ & Cl).
  destruct (find_pairs_any ord O (with_more p0 more) w3 (apart log ign) R5) as (f & r & Ef & G & N & A); [intros a b k H; destruct (Sn a b H) as (Sa & Sb); split; apply Cl; assumption|].
  exists f, r. split; [exact Ef|]. split; [intros x Hx; exact (proj1 (Forall_forall _ _) G x Hx)|]. split; [exact N|].
  intros x y B C Hx Hy D (F1 & F2 & F3 & F4 & F5) (I1 & I2 & I3 & I4).
  assert (Nk : as_key x <> as_key y).
  { intros Ek. apply D. apply In_nth_error in Hx. apply In_nth_error in Hy. destruct Hx as (i & Hi), Hy as (j & Hj).
    assert (X : i = j). { apply (proj1 (NoDup_nth_error (map as_key r)) N); [rewrite map_length; apply nth_error_Some; congruence|]. rewrite !nth_error_map, Hi, Hj. cbn. congruence. }
    congruence. }
  apply (A x y (mkASet (bset_of B) (bset_of C)) Hx Hy Nk).
  - split; [apply tidy_both; split; apply bset_of_sorted|]. cbn [as_left as_right]. do 2 (split; [apply bset_of_nil; assumption|]). split; [|split]; intros u v Hu Hv; rewrite bset_of_In in Hu, Hv; auto.
  - apply atoms2_incl. cbn [as_left as_right]. split; intros z Hz; apply bset_of_In; auto.
  - apply atoms2_incl. cbn [as_left as_right]. split; intros z Hz; apply bset_of_In; auto.
Qed.
Print Assumptions C92_pairs_end.
(** If no two pairs of sets which fit have the same list of names, it finds exactly the largest ones, each once. *)
Theorem C92_pairs : forall ord, any_order ord -> forall log ign w3, long_enough log -> (forall a b, In (a, b) w3 -> seen log ign a /\ seen log ign b) ->
  clear_lists (fits (fun a b => In (a, b) w3) (apart log ign)) ->
  exists p0, nfc_provider (r_create_from ord log false ign) log = Ok p0 /\ forall more, exists fuel0 r,
  (forall fuel, fuel0 <= fuel -> find_pairs ord fuel (with_more p0 more) w3 = Ok r) /\ NoDup r /\
  forall x, In x r <-> tidy x /\ maximal (fun a b => In (a, b) w3) (apart log ign) (as_left x) (as_right x).
Proof.
  intros ord O log ign w3 L Sn Cr. destruct (C85_relations ord O log ign L) as (p0 & E & R). destruct (provider_facts ord O log ign L) as (p' & E' & Fa). assert (p' = p0) by congruence. subst p'.
  exists p0. split; [exact E|]. intros more. destruct (R more) as (_ & _ & _ & _ & R5 & _). destruct (Fa more) as (_ & Cl).
  destruct (find_pairs_largest ord O (with_more p0 more) w3 (apart log ign) R5) as (f & r & H); [intros a b k H; destruct (Sn a b H) as (Sa & Sb); split; apply Cl; assumption|exact Cr|]. exists f, r. exact H.
Qed.
Print Assumptions C92_pairs.
(** The pairs of a log and a relation, hash tables as they are. *)
Definition log_pairs (fuel : nat) (log : names_log) (w3 : list (pystr * pystr)) : result (list aset) :=
  bind (nfc_provider (r_create_from as_it_is log false None) log) (fun p => find_pairs as_it_is fuel p w3).
Definition pr_log : list (list pystr) := [[str "a"; str "x"; str "b"; str "x"; str "c"]].
Example C92_pairs_case : let w3 := [(str "a", str "b")] in long_enough pr_log /\ (forall a b, In (a, b) w3 -> seen pr_log None a /\ seen pr_log None b) /\
  clear_lists (fits (fun a b => In (a, b) w3) (apart pr_log None)) /\ log_pairs 20 pr_log w3 = Ok [as_new (str "a") (str "b")].
Proof.
  cbn zeta. split; [intros t [<-|[]]; cbn; lia|]. split.
  - intros a b [H|[]]. injection H as <- <-. split; (split; [|exact I]); exists (hd [] pr_log); (split; [left; reflexivity|cbn; tauto]).
  - split; [|vm_compute; reflexivity].
    assert (One : forall A B, bsorted A -> bsorted B -> fits (fun a b => In (a, b) [(str "a", str "b")]) (apart pr_log None) A B -> A = [str "a"] /\ B = [str "b"]).
    { intros A B SA SB (NA & NB & H & _). destruct A as [|a0 A0] eqn:Ea; [congruence|]. destruct B as [|b0 B0] eqn:Eb; [congruence|]. rewrite <- Ea, <- Eb in *.
      assert (Ha : In a0 A) by (rewrite Ea; left; reflexivity). assert (Hb : In b0 B) by (rewrite Eb; left; reflexivity).
      split; apply all_one; auto; intros x Hx; [destruct (H x b0 Hx Hb) as [X|[]]|destruct (H a0 x Ha Hx) as [X|[]]]; congruence. }
    intros A B A' B' S1 S2 S3 S4 F F' _. destruct (One A B S1 S2 F) as (-> & ->). destruct (One A' B' S3 S4 F') as (-> & ->). auto.
Qed.
(** It is not so that the largest pairs are always found: of two with the same list of names one is lost. *)
Definition lost_w3 : list (pystr * pystr) := [(str "a", str "b"); (str "a", str "c"); (str "b", str "c")].
Theorem C92_pairs_refuted : exists log w3 p fuel r A B, long_enough log /\ nfc_provider (r_create_from as_it_is log false None) log = Ok p /\
  find_pairs as_it_is fuel p w3 = Ok r /\ fits (fun a b => In (a, b) w3) (apart log None) A B /\ ~ exists x, In x r /\ incl A (as_left x) /\ incl B (as_right x).
Proof.
  destruct (nfc_provider (r_create_from as_it_is pr_log false None) pr_log) as [p|e] eqn:E; [|vm_compute in E; discriminate].
  exists pr_log, lost_w3, p, 20, [mkASet [str "a"] [str "b"; str "c"]], [str "a"; str "b"], [str "c"]. split; [intros t [<-|[]]; cbn; lia|]. split; [exact E|].
  split; [vm_compute in E; injection E as <-; vm_compute; reflexivity|]. split.
  - split; [discriminate|]. split; [discriminate|]. split; [|split]; intros u v Hu Hv; cbn in Hu, Hv; destruct Hu as [<-|Hu]; try (destruct Hu as [<-|[]]); destruct Hv as [<-|Hv]; try (destruct Hv as [<-|[]]); try contradiction;
      first [vm_compute; tauto|split; intros H; vm_compute in H; intuition discriminate].
  - intros (x & [<-|[]] & H & _). destruct (H (str "b")) as [X|[]]; [right; left; reflexivity|discriminate].
Qed.
Print Assumptions C92_pairs_refuted.

(** * Extensions *)
Section Ext.
  Variables (log : list (list pystr)) (ign : option (list pystr)) (arrow : pystr -> pystr -> bool) (w1 w2 : list (pystr * pystr)).
  (** What may be added to sets, for the relations the search is given. *)
  Definition may_extend (A B A' B' : list pystr) : Prop :=
    extends (seen log ign) (fun a b => In (a, b) w1 \/ In (a, b) w2) (fun a b => apart log ign a b /\ arrow a b = false) A B A' B'.
  Definition fully_extends (A B A' B' : list pystr) : Prop :=
    full_extension (seen log ign) (fun a b => In (a, b) w1 \/ In (a, b) w2) (fun a b => apart log ign a b /\ arrow a b = false) A B A' B'.
End Ext.
(** Sets with their names in ascending order, no two of which have the same list of names. *)
Definition clear_sets (sets : list aset) : Prop := (forall s, In s sets -> tidy s) /\
  forall s s', In s sets -> In s' sets -> as_left s ++ as_right s = as_left s' ++ as_right s' -> s = s'.
(** The search for extensions ends and gives extensions of the sets. *)
Theorem C92_extensions_end : forall ord, any_order ord -> forall log ign arrow w1 w2 sets, long_enough log -> clear_sets sets ->
  exists p0, nfc_provider (r_create_from ord log false ign) log = Ok p0 /\ forall more, exists fuel0 r,
  (forall fuel, fuel0 <= fuel -> find_xsets ord fuel (with_more p0 more) arrow w1 w2 sets = Ok r) /\
  forall x, In x r -> In (x_set x) sets /\ bsorted (x_left x) /\ bsorted (x_right x) /\ may_extend log ign arrow w1 w2 (as_left (x_set x)) (as_right (x_set x)) (x_left x) (x_right x).
Proof.
  intros ord O log ign arrow w1 w2 sets L (T & Cs). destruct (C85_relations ord O log ign L) as (p0 & E & R). destruct (provider_facts ord O log ign L) as (p' & E' & Fa). assert (p' = p0) by congruence. subst p'.
  exists p0. split; [exact E|]. intros more. destruct (R more) as (_ & _ & _ & _ & R5 & _). destruct (Fa more) as (_ & Cl).
  destruct (find_xsets_any ord O (with_more p0 more) arrow w1 w2 sets (seen log ign) (apart log ign) Cl R5 T Cs) as (f & r & Ef & G). exists f, r. split; [exact Ef|]. intros x Hx. exact (proj1 (Forall_forall _ _) G x Hx).
Qed.
Print Assumptions C92_extensions_end.
(** If different extensions of a set have different texts, it finds exactly the full extensions of each set, each once. *)
Theorem C92_extensions : forall ord, any_order ord -> forall log ign arrow w1 w2 sets, long_enough log -> clear_sets sets ->
  (forall s, In s sets -> clear_extensions (may_extend log ign arrow w1 w2 (as_left s) (as_right s))) ->
  exists p0, nfc_provider (r_create_from ord log false ign) log = Ok p0 /\ forall more, exists fuel0 r,
  (forall fuel, fuel0 <= fuel -> find_xsets ord fuel (with_more p0 more) arrow w1 w2 sets = Ok r) /\ NoDup r /\
  forall x, In x r <-> In (x_set x) sets /\ bsorted (x_left x) /\ bsorted (x_right x) /\ fully_extends log ign arrow w1 w2 (as_left (x_set x)) (as_right (x_set x)) (x_left x) (x_right x).
Proof.
  intros ord O log ign arrow w1 w2 sets L (T & Cs) Ce. destruct (C85_relations ord O log ign L) as (p0 & E & R). destruct (provider_facts ord O log ign L) as (p' & E' & Fa). assert (p' = p0) by congruence. subst p'.
  exists p0. split; [exact E|]. intros more. destruct (R more) as (_ & _ & _ & _ & R5 & _). destruct (Fa more) as (_ & Cl).
  destruct (find_xsets_largest ord O (with_more p0 more) arrow w1 w2 sets (seen log ign) (apart log ign) Cl R5 T Cs Ce) as (f & r & H). exists f, r. exact H.
Qed.
Print Assumptions C92_extensions.
(** The extensions for a log, hash tables as they are. *)
Definition log_xsets (fuel : nat) (log : names_log) (w1 : list (pystr * pystr)) (sets : list aset) : result (list xset) :=
  bind (nfc_provider (r_create_from as_it_is log false None) log) (fun p => find_xsets as_it_is fuel p (fun _ _ => false) w1 [] sets).
Definition xs_log : list (list pystr) := [[str "a"; str "b"]; [str "a"; str "x"; str "c"; str "x"]].
Example C92_extensions_case : let w1 := [(str "a", str "c")] in let sets := [as_new (str "a") (str "b")] in
  long_enough xs_log /\ clear_sets sets /\ (forall s, In s sets -> clear_extensions (may_extend xs_log None (fun _ _ => false) w1 [] (as_left s) (as_right s))) /\
  log_xsets 20 xs_log w1 sets = Ok [mkXSet (as_new (str "a") (str "b")) [] [str "c"]].
Proof.
  cbn zeta. split; [intros t [<-|[<-|[]]]; cbn; lia|]. split; [|split; [|vm_compute; reflexivity]].
  - split; [intros s [<-|[]]; apply tidy_both; split; apply bsorted_one|]. intros s s' [<-|[]] [<-|[]] _. reflexivity.
  - intros s [<-|[]] A B A' B' S1 S2 S3 S4 E E' T. cbn [as_left as_right as_new] in *.
    assert (One : forall A B, bsorted B -> may_extend xs_log None (fun _ _ => false) [(str "a", str "c")] [] [str "a"] [str "b"] A B -> A = [] /\ (B = [] \/ B = [str "c"])).
    { intros C D SD [_ _ X1 X2 _ _ _]. split.
      - destruct C as [|c C]; [reflexivity|]. destruct (X2 c (str "b")) as [[H|[]]|[]]; [left; reflexivity|left; reflexivity|discriminate].
      - destruct D as [|d D]; [left; reflexivity|]. right. apply all_one; [exact SD|discriminate|]. intros x Hx. destruct (X1 (str "a") x) as [[H|[]]|[]]; [left; reflexivity|exact Hx|congruence]. }
    destruct (One A B S2 E) as (-> & HB). destruct (One A' B' S4 E') as (-> & HB'). split; [reflexivity|]. destruct HB as [->| ->], HB' as [->| ->]; reflexivity || discriminate.
Qed.
(** It is not so that all full extensions are always found: of two with the same text one is lost. *)
Definition lost_xs_log : list (list pystr) := [[str "a"; str "n"; str "b"; str "n"; str "x"; str "n"; str "yz"; str "n"; str "xy"; str "n"; str "z"]].
Definition lost_w1 : list (pystr * pystr) := [(str "x", str "b"); (str "x", str "yz"); (str "a", str "yz"); (str "xy", str "b"); (str "xy", str "z"); (str "a", str "z")].
Theorem C92_extensions_refuted : exists log w1 sets p fuel r s A B, long_enough log /\ clear_sets sets /\ nfc_provider (r_create_from as_it_is log false None) log = Ok p /\
  find_xsets as_it_is fuel p (fun _ _ => false) w1 [] sets = Ok r /\ In s sets /\ may_extend log None (fun _ _ => false) w1 [] (as_left s) (as_right s) A B /\
  ~ exists x, In x r /\ x_set x = s /\ incl A (x_left x) /\ incl B (x_right x).
Proof.
  destruct (nfc_provider (r_create_from as_it_is lost_xs_log false None) lost_xs_log) as [p|e] eqn:E; [|vm_compute in E; discriminate].
  set (s := as_new (str "a") (str "b")).
  exists lost_xs_log, lost_w1, [s], p, 20, [mkXSet s [str "x"] [str "yz"]; mkXSet s [str "x"; str "xy"] []; mkXSet s [] [str "yz"; str "z"]], s, [str "xy"], [str "z"].
  split; [intros t [<-|[]]; cbn; lia|]. split; [split; [intros u [<-|[]]; apply tidy_both; split; apply bsorted_one|intros u v [<-|[]] [<-|[]] _; reflexivity]|]. split; [exact E|].
  split; [vm_compute in E; injection E as <-; vm_compute; reflexivity|]. split; [left; reflexivity|]. split.
  - assert (Sn : forall c, In c [str "xy"; str "z"] -> seen lost_xs_log None c) by (intros c [<-|[<-|[]]]; (split; [|exact I]); exists (hd [] lost_xs_log); (split; [left; reflexivity|cbn; tauto])).
    unfold s. cbn [as_new as_left as_right]. split.
    + intros a [<-|[]]. split; [apply Sn; left; reflexivity|]. intros [H|[]]. discriminate.
    + intros a [<-|[]]. split; [apply Sn; right; left; reflexivity|]. intros [H|[]]. discriminate.
    + intros a b [<-|[]] [<-|[]]. left. unfold lost_w1. cbn [In]. tauto.
    + intros a b [<-|[]] [<-|[]]. left. unfold lost_w1. cbn [In]. tauto.
    + intros a b [<-|[]] [<-|[]]. left. unfold lost_w1. cbn [In]. tauto.
    + intros a b [<-|[]] [<-|[]]. split; [split; intros H; vm_compute in H; intuition discriminate|reflexivity].
    + intros a b [<-|[]] [<-|[]]. split; [split; intros H; vm_compute in H; intuition discriminate|reflexivity].
  - intros (x & [<-|[<-|[<-|[]]]] & _ & H & H').
    + destruct (H (str "xy") (or_introl eq_refl)) as [X|[]]. discriminate.
    + destruct (H' (str "z") (or_introl eq_refl)).
    + destruct (H (str "xy") (or_introl eq_refl)).
Qed.
Print Assumptions C92_extensions_refuted.
