From Coq Require Import Sorting.Permutation Sorting.Sorted Lia Bool.
From Verif Require Import Py PyFacts HashModel TextModel XesModel WireModel RXesModel RXesSpec RXesProofs.

Section Robust.
  Variables date f32 f64 : Type.
  Variables (show_date : date -> pystr) (show_f32 : f32 -> pystr) (show_f64 : f64 -> pystr).
  Variables (parse_date : pystr -> option date) (parse_f64 : pystr -> option f64) (parse_uuid : pystr -> option uuid).
  Notation pval := (pval date f32 f64).
  Notation xevent := (xevent date f32 f64).
  Notation xlog := (xlog date f32 f64).
  Notation extract := (extract_payload_value f32 parse_date parse_f64 parse_uuid).
  Notation read_event := (read_event f32 parse_date parse_f64 parse_uuid).
  Notation read_trace := (read_trace f32 parse_date parse_f64 parse_uuid).
  Notation read_global := (read_global f32 parse_date parse_f64 parse_uuid).
  Notation read_items := (read_items f32 parse_date parse_f64 parse_uuid).
  Notation read_log := (read_log f32 parse_date parse_f64 parse_uuid).
  Notation write_log := (write_log show_date show_f32 show_f64).
  Notation trace_of := (trace_of date f32 f64 parse_date parse_f64 parse_uuid).
  Notation items_of := (items_of date f32 f64 parse_date parse_f64 parse_uuid).

  (* ---- tags never hang, and panic on bad entities only ---- *)
  Lemma last_attr_in n attrs v : last_attr n attrs = Some v -> In (Some (n, v)) attrs.
  Proof.
    unfold last_attr. assert (A : forall acc, fold_left (fun acc a => match a with Some (k, v) => if str_eqb k n then Some v else acc | None => acc end) attrs acc = Some v ->
      In (Some (n, v)) attrs \/ acc = Some v).
    { induction attrs as [|[[k w]|] l IH]; intros acc H; [right; exact H| |].
      - cbn in H. apply IH in H. destruct H as [H|H]; [left; right; exact H|].
        destruct (str_eqb k n) eqn:E; [|right; exact H]. apply str_eqb_eq in E. injection H as ->. subst. left. left. reflexivity.
      - cbn in H. apply IH in H. destruct H as [H|H]; [left; right; exact H|right; exact H]. }
    intros H. destruct (A None H) as [B|B]; [exact B|discriminate].
  Qed.
  Lemma payload_good attrs : good_attrs attrs -> exists o, read_payload_like_tag attrs = Fine o.
  Proof.
    intros G. unfold read_payload_like_tag.
    destruct (last_attr (str "key") attrs) as [k|] eqn:K; [|eexists; reflexivity].
    destruct (last_attr (str "value") attrs) as [v|] eqn:V; [|eexists; reflexivity].
    apply last_attr_in in K, V. assert (A := G _ _ K (or_introl eq_refl)). assert (B := G _ _ V (or_intror eq_refl)).
    destruct (unescape k); [|contradiction]. destruct (unescape v); [|contradiction]. eexists. reflexivity.
  Qed.
  Lemma payload_not_hang attrs : read_payload_like_tag attrs <> Hangs.
  Proof.
    unfold read_payload_like_tag. destruct (last_attr _ attrs); [|discriminate]. destruct (last_attr _ attrs); [|discriminate].
    destruct (unescape _); [|discriminate]. destruct (unescape _); discriminate.
  Qed.
  Lemma property_good n attrs : good_attrs attrs -> exists o, try_read_property f32 parse_date parse_f64 parse_uuid n attrs = Fine o.
  Proof. intros G. destruct (payload_good attrs G) as (o & E). unfold try_read_property. rewrite E. destruct o as [[k v]|]; eexists; reflexivity. Qed.
  Lemma property_not_hang n attrs : try_read_property f32 parse_date parse_f64 parse_uuid n attrs <> Hangs.
  Proof. unfold try_read_property. pose proof (payload_not_hang attrs). destruct (read_payload_like_tag attrs) as [[[k v]|]| |]; try discriminate. contradiction. Qed.
  Lemma tag_good n attrs : good_attrs attrs -> exists o, try_read_tag f32 parse_date parse_f64 parse_uuid n attrs = Fine o.
  Proof.
    intros G. unfold try_read_tag. match goal with |- context [match ?f with Some i => Fine (Some i) | None => _ end] => destruct f end; [eexists; reflexivity|].
    apply property_good. assumption.
  Qed.
  Lemma tag_not_hang n attrs : try_read_tag f32 parse_date parse_f64 parse_uuid n attrs <> Hangs.
  Proof.
    unfold try_read_tag. match goal with |- context [match ?f with Some i => Fine (Some i) | None => _ end] => destruct f end; [discriminate|].
    apply property_not_hang.
  Qed.

  Lemma good_tail t l : good_entities (t :: l) -> good_entities l.
  Proof. intros G n a [H|H]; eapply G; [left|right]; right; exact H. Qed.
  Lemma good_suffix a l : good_entities (a ++ l) -> good_entities l.
  Proof. induction a as [|t a IH]; intros G; [assumption|]. apply IH. eapply good_tail. exact G. Qed.
  Lemma good_incl l l' : incl l' l -> good_entities l -> good_entities l'.
  Proof. intros I G n a [H|H]; eapply G; [left|right]; apply I; exact H. Qed.

  Lemma event_rest l : forall p o r, read_event p l = Fine (o, r) -> incl r l.
  Proof.
    induction l as [|t l IH]; intros p o r H; [discriminate|]. destruct t; cbn in H; try (apply incl_tl; eapply IH; exact H).
    - destruct (read_payload_like_tag attrs) as [[[k v]|]| |]; try discriminate; [|apply incl_tl; eapply IH; exact H].
      destruct (extract name v); apply incl_tl; eapply IH; exact H.
    - destruct (str_eqb name _); [injection H as _ <-; apply incl_tl, incl_refl|apply incl_tl; eapply IH; exact H].
  Qed.
  Lemma global_rest l : forall p o r, read_global p l = Fine (o, r) -> incl r l.
  Proof.
    induction l as [|t l IH]; intros p o r H; [discriminate|]. destruct t; cbn in H; try (apply incl_tl; eapply IH; exact H).
    - destruct (read_payload_like_tag attrs) as [[[k v]|]| |]; try discriminate; apply incl_tl; eapply IH; exact H.
    - destruct (str_eqb name _); [injection H as _ <-; apply incl_tl, incl_refl|apply incl_tl; eapply IH; exact H].
    - injection H as _ <-. apply incl_tl, incl_refl.
  Qed.
  Lemma trace_rest f : forall g l es r, read_trace f g l = Fine (es, r) -> incl r l.
  Proof.
    induction f as [|f IH]; intros g l es r H; [discriminate|]. destruct l as [|t l]; [discriminate|].
    destruct t; cbn in H; try (apply incl_tl; eapply IH; exact H).
    - destruct (str_eqb name _); [|apply incl_tl; eapply IH; exact H].
      destruct (read_event (defaults g) l) as [[o r']| |] eqn:E; try discriminate. apply event_rest in E.
      destruct (read_trace f g r') as [[es' r'']| |] eqn:E2; try discriminate. apply IH in E2. injection H as _ <-.
      apply incl_tl. eapply incl_tran; eassumption.
    - destruct (str_eqb name _); [injection H as _ <-; apply incl_tl, incl_refl|apply incl_tl; eapply IH; exact H].
    - injection H as _ <-. apply incl_tl, incl_refl.
  Qed.

  (* ---- no panic ---- *)
  Lemma event_no_panic l : forall p, good_entities l -> read_event p l <> Panics.
  Proof.
    induction l as [|t l IH]; intros p G; [discriminate|]. pose proof (good_tail _ _ G) as G'. destruct t; cbn; try (apply IH; assumption).
    - destruct (payload_good attrs) as (o & E); [eapply G; right; left; reflexivity|]. rewrite E.
      destruct o as [[k v]|]; [|apply IH; assumption]. destruct (extract name v); apply IH; assumption.
    - destruct (str_eqb name _); [discriminate|apply IH; assumption].
  Qed.
  Lemma global_no_panic l : forall p, good_entities l -> read_global p l <> Panics.
  Proof.
    induction l as [|t l IH]; intros p G; [discriminate|]. pose proof (good_tail _ _ G) as G'. destruct t; cbn; try (apply IH; assumption); try discriminate.
    - destruct (payload_good attrs) as (o & E); [eapply G; right; left; reflexivity|]. rewrite E.
      destruct o as [[k v]|]; apply IH; assumption.
    - destruct (str_eqb name _); [discriminate|apply IH; assumption].
  Qed.
  Lemma trace_no_panic f : forall g l, good_entities l -> read_trace f g l <> Panics.
  Proof.
    induction f as [|f IH]; intros g l G; [discriminate|]. destruct l as [|t l]; [discriminate|]. pose proof (good_tail _ _ G) as G'.
    destruct t; cbn; try (apply IH; assumption); try discriminate.
    - destruct (str_eqb name _); [|apply IH; assumption].
      pose proof (event_no_panic l (defaults g) G') as NP. destruct (read_event (defaults g) l) as [[o r']| |] eqn:E; try discriminate; [|contradiction].
      apply event_rest in E. pose proof (IH g r' (good_incl _ _ E G')) as N2. destruct (read_trace f g r') as [[es r'']| |]; try discriminate. contradiction.
    - destruct (str_eqb name _); [discriminate|apply IH; assumption].
  Qed.
  Lemma items_no_panic f : forall g l, good_entities l -> read_items f g l <> Panics.
  Proof.
    induction f as [|f IH]; intros g l G; [discriminate|]. destruct l as [|t l]; [discriminate|]. pose proof (good_tail _ _ G) as G'.
    assert (EM : forall o, o <> Panics -> match o with
       | Fine (Some i) => match read_items f g l with Fine is => Fine (i :: is) | Panics => Panics | Hangs => Hangs end
       | Fine None => read_items f g l | Panics => Panics | Hangs => Hangs end <> Panics).
    { intros [[i|]| |] N; try discriminate; [|apply IH; assumption|contradiction].
      pose proof (IH g l G') as N2. destruct (read_items f g l); try discriminate. contradiction. }
    destruct t; cbn [RXesModel.read_items]; try (apply IH; assumption); try discriminate.
    - assert (GA : good_attrs attrs) by (eapply G; left; left; reflexivity).
      destruct (str_eqb name (str "trace")).
      { pose proof (trace_no_panic (S (length l)) g l G') as NP. destruct (read_trace (S (length l)) g l) as [[es r']| |] eqn:E; try discriminate; [|contradiction].
        apply trace_rest in E. pose proof (IH g r' (good_incl _ _ E G')) as N2. destruct (read_items f g r'); try discriminate. contradiction. }
      destruct (str_eqb name (str "global")).
      { destruct (last_attr (str "scope") attrs); [|apply IH; assumption].
        pose proof (global_no_panic l None G') as NP. destruct (read_global None l) as [[[v|] r']| |] eqn:E; try discriminate; [| |contradiction]; apply global_rest in E.
        - destruct (dmem _ _ _); [apply IH; eapply good_incl; eassumption|].
          pose proof (IH (dset str_eq_dec g p v) r' (good_incl _ _ E G')) as N2. destruct (read_items f _ r'); try discriminate. contradiction.
        - apply IH. eapply good_incl; eassumption. }
      destruct (_ || _); apply EM.
      + destruct (tag_good name attrs GA) as (o & ->). discriminate.
      + destruct (property_good name attrs GA) as (o & ->). discriminate.
    - apply EM. destruct (tag_good name attrs) as (o & ->); [eapply G; right; left; reflexivity|]. discriminate.
  Qed.
  Lemma no_panic l : good_entities l -> read_log l <> Panics.
  Proof.
    intros G. unfold RXesModel.read_log. pose proof (items_no_panic (S (length l)) [] l G). destruct (read_items _ _ _); try discriminate. contradiction.
  Qed.

  (* ---- no endless loop on well nested files ---- *)
  Lemma event_nested l : forall p a b, nested (a ++ str "event" :: b) l ->
    read_event p l <> Hangs /\ forall o r, read_event p l = Fine (o, r) -> exists a', nested (a' ++ b) r.
  Proof.
    induction l as [|t l IH]; intros p a b H; [destruct a; discriminate|]. destruct t; cbn [nested app] in H.
    - apply (IH p (name :: a)). exact H.
    - cbn [RXesModel.read_event]. pose proof (payload_not_hang attrs) as NH. destruct (read_payload_like_tag attrs) as [[[k v]|]| |]; [|apply (IH p a); exact H|split; discriminate|contradiction].
      destruct (extract name v); apply (IH _ a); exact H.
    - cbn [RXesModel.read_event]. destruct a as [|m a]; cbn [nested app] in H; destruct H as [-> H].
      + change (str_eqb (str "event") (str "event")) with true. cbn iota. split; [discriminate|]. intros o r E. injection E as _ <-. exists []. exact H.
      + destruct (str_eqb m (str "event")) eqn:E; [|apply (IH p a); exact H]. split; [discriminate|]. intros o r E2. injection E2 as _ <-.
        exists (a ++ [str "event"]). rewrite <- app_assoc. exact H.
    - apply (IH p a). exact H.
    - destruct H.
  Qed.
  Lemma global_nested l : forall p a b, nested (a ++ str "global" :: b) l ->
    read_global p l <> Hangs /\ forall o r, read_global p l = Fine (o, r) -> exists a', nested (a' ++ b) r.
  Proof.
    induction l as [|t l IH]; intros p a b H; [destruct a; discriminate|]. destruct t; cbn [nested app] in H.
    - apply (IH p (name :: a)). exact H.
    - cbn [RXesModel.read_global]. pose proof (payload_not_hang attrs) as NH. destruct (read_payload_like_tag attrs) as [[[k v]|]| |]; [|apply (IH p a); exact H|split; discriminate|contradiction].
      apply (IH _ a); exact H.
    - cbn [RXesModel.read_global]. destruct a as [|m a]; cbn [nested app] in H; destruct H as [-> H].
      + change (str_eqb (str "global") (str "global")) with true. cbn iota. split; [discriminate|]. intros o r E. injection E as _ <-. exists []. exact H.
      + destruct (str_eqb m (str "global")) eqn:E; [|apply (IH p a); exact H]. split; [discriminate|]. intros o r E2. injection E2 as _ <-.
        exists (a ++ [str "global"]). rewrite <- app_assoc. exact H.
    - apply (IH p a). exact H.
    - destruct H.
  Qed.
  Lemma trace_nested f : forall g l a b, length l < f -> nested (a ++ str "trace" :: b) l ->
    read_trace f g l <> Hangs /\ forall es r, read_trace f g l = Fine (es, r) -> exists a', nested (a' ++ b) r.
  Proof.
    induction f as [|f IH]; intros g l a b L H; [lia|]. destruct l as [|t l]; [destruct a; discriminate|]. cbn in L. destruct t; cbn [nested app] in H.
    - cbn [RXesModel.read_trace]. destruct (str_eqb name (str "event")) eqn:EN; [|apply (IH g l (name :: a)); [lia|exact H]]. apply str_eqb_eq in EN. subst name.
      destruct (event_nested l (defaults g) [] (a ++ str "trace" :: b) H) as [NH R].
      destruct (read_event (defaults g) l) as [[o r']| |] eqn:E; [|split; discriminate|contradiction].
      destruct (R _ _ eq_refl) as (a' & R'). apply read_event_shorter in E. rewrite app_assoc in R'.
      destruct (IH g r' (a' ++ a) b ltac:(lia) R') as [NH2 R2].
      destruct (read_trace f g r') as [[es r'']| |]; [|split; discriminate|contradiction]. split; [discriminate|].
      intros es0 r0 E0. injection E0 as _ <-. eapply R2. reflexivity.
    - apply (IH g l a); [lia|exact H].
    - cbn [RXesModel.read_trace]. destruct a as [|m a]; cbn [nested app] in H; destruct H as [-> H].
      + change (str_eqb (str "trace") (str "trace")) with true. cbn iota. split; [discriminate|]. intros o r E. injection E as _ <-. exists []. exact H.
      + destruct (str_eqb m (str "trace")) eqn:E; [|apply (IH g l a); [lia|exact H]]. split; [discriminate|]. intros o r E2. injection E2 as _ <-.
        exists (a ++ [str "trace"]). rewrite <- app_assoc. exact H.
    - apply (IH g l a); [lia|exact H].
    - destruct H.
  Qed.
  Lemma items_nested f : forall g l st, length l < f -> nested st l -> read_items f g l <> Hangs.
  Proof.
    induction f as [|f IH]; intros g l st L H; [lia|]. destruct l as [|t l]; [discriminate|]. cbn in L.
    assert (EM : forall o st, o <> Hangs -> nested st l -> match o with
       | Fine (Some i) => match read_items f g l with Fine is => Fine (i :: is) | Panics => Panics | Hangs => Hangs end
       | Fine None => read_items f g l | Panics => Panics | Hangs => Hangs end <> Hangs).
    { intros [[i|]| |] st' N H'; try discriminate; [|eapply IH; [lia|exact H']|contradiction].
      assert (N2 : read_items f g l <> Hangs) by (eapply IH; [lia|exact H']). destruct (read_items f g l); try discriminate. contradiction. }
    destruct t; cbn [RXesModel.read_items]; cbn in H.
    - destruct (str_eqb name (str "trace")) eqn:ET.
      { apply str_eqb_eq in ET. subst name. destruct (trace_nested (S (length l)) g l [] st ltac:(lia) H) as [NH R].
        destruct (read_trace (S (length l)) g l) as [[es r']| |] eqn:E; [|discriminate|contradiction].
        destruct (R _ _ eq_refl) as (a' & R'). apply read_trace_shorter in E.
        assert (N2 : read_items f g r' <> Hangs) by (eapply IH; [lia|exact R']). destruct (read_items f g r'); try discriminate. contradiction. }
      destruct (str_eqb name (str "global")) eqn:EG.
      { apply str_eqb_eq in EG. subst name. destruct (last_attr (str "scope") attrs); [|eapply IH; [lia|exact H]].
        destruct (global_nested l None [] st H) as [NH R].
        destruct (read_global None l) as [[[v|] r']| |] eqn:E; [| |discriminate|contradiction]; destruct (R _ _ eq_refl) as (a' & R'); apply read_global_shorter in E.
        - destruct (dmem _ _ _); [eapply IH; [lia|exact R']|].
          assert (N2 : read_items f (dset str_eq_dec g p v) r' <> Hangs) by (eapply IH; [lia|exact R']). destruct (read_items f _ r'); try discriminate. contradiction.
        - eapply IH; [lia|exact R']. }
      destruct (_ || _); eapply EM; try exact H; [apply tag_not_hang|apply property_not_hang].
    - eapply EM; [apply tag_not_hang|exact H].
    - destruct st as [|m st]; [destruct H|]. destruct H as [_ H]. eapply IH; [lia|exact H].
    - eapply IH; [lia|exact H].
    - destruct H.
  Qed.
  Lemma no_hang l : nested [] l -> read_log l <> Hangs.
  Proof.
    intros N. unfold RXesModel.read_log. pose proof (items_nested (S (length l)) [] l [] ltac:(lia) N). destruct (read_items _ _ _); try discriminate. contradiction.
  Qed.
  Lemma total l : nested [] l -> good_entities l -> exists log, read_log l = Fine log.
  Proof.
    intros N G. pose proof (no_hang l N). pose proof (no_panic l G). destruct (read_log l) as [log| |]; [eexists; reflexivity|contradiction..].
  Qed.

  (* ---- text ---- *)
  Definition rest_only {A} (o : outcome (A * list tok)) : outcome (A * list tok) :=
    match o with Fine (a, r) => Fine (a, tags_only r) | Panics => Panics | Hangs => Hangs end.
  Lemma event_text l : forall p, read_event p (tags_only l) = rest_only (read_event p l).
  Proof.
    induction l as [|t l IH]; intros p; [reflexivity|]. destruct t; cbn [tags_only filter]; fold (tags_only l); cbn [RXesModel.read_event]; try apply IH.
    - destruct (read_payload_like_tag attrs) as [[[k v]|]| |]; try reflexivity; [|apply IH]. destruct (extract name v); apply IH.
    - destruct (str_eqb name _); [reflexivity|apply IH].
  Qed.
  Lemma global_text l : forall p, read_global p (tags_only l) = rest_only (read_global p l).
  Proof.
    induction l as [|t l IH]; intros p; [reflexivity|]. destruct t; cbn [tags_only filter]; fold (tags_only l); cbn [RXesModel.read_global]; try apply IH; try reflexivity.
    - destruct (read_payload_like_tag attrs) as [[[k v]|]| |]; try reflexivity; apply IH.
    - destruct (str_eqb name _); [reflexivity|apply IH].
  Qed.
  Lemma tags_shorter l : length (tags_only l) <= length l.
  Proof. unfold tags_only. induction l as [|t l IH]; [constructor|]. cbn. destruct t; cbn; lia. Qed.
  Lemma trace_text f : forall f' g l, length l < f -> length (tags_only l) < f' -> read_trace f' g (tags_only l) = rest_only (read_trace f g l).
  Proof.
    induction f as [|f IH]; intros f' g l L L'; [lia|]. destruct l as [|t l]; [destruct f'; reflexivity|]. cbn in L.
    destruct t; cbn [tags_only filter] in *; fold (tags_only l) in *; cbn [length] in L'; (destruct f' as [|f']; [lia|]); cbn [RXesModel.read_trace]; try reflexivity.
    - destruct (str_eqb name (str "event")); [|apply IH; lia]. rewrite event_text.
      destruct (read_event (defaults g) l) as [[o r']| |] eqn:E; try reflexivity. cbn [rest_only]. 
      pose proof (f_equal rest_only E) as E'. rewrite <- event_text in E'. cbn [rest_only] in E'. apply read_event_shorter in E, E'.
      rewrite (IH f') by lia. destruct (read_trace f g r') as [[es r'']| |]; reflexivity.
    - apply IH; lia.
    - destruct (str_eqb name _); [reflexivity|apply IH; lia].
    - change (read_trace (S f') g (tags_only l) = rest_only (read_trace f g l)). apply IH; lia.
  Qed.
  Lemma items_text f : forall f' g l, length l < f -> length (tags_only l) < f' -> read_items f' g (tags_only l) = read_items f g l.
  Proof.
    induction f as [|f IH]; intros f' g l L L'; [lia|]. destruct l as [|t l]; [destruct f'; [cbn in L'; lia|reflexivity]|]. cbn in L.
    destruct t; cbn [tags_only filter] in *; fold (tags_only l) in *; cbn [length] in L'; (destruct f' as [|f']; [lia|]).
    - cbn [RXesModel.read_items]. destruct (str_eqb name (str "trace")).
      { rewrite (trace_text (S (length l))) by lia.
        destruct (read_trace (S (length l)) g l) as [[es r']| |] eqn:E; try reflexivity. cbn [rest_only].
        pose proof (f_equal rest_only E) as E'. rewrite <- (trace_text _ (S (length (tags_only l)))) in E' by lia. cbn [rest_only] in E'. apply read_trace_shorter in E, E'.
        rewrite (IH f') by lia. reflexivity. }
      destruct (str_eqb name (str "global")).
      { destruct (last_attr (str "scope") attrs); [|apply IH; lia]. rewrite global_text.
        destruct (read_global None l) as [[[v|] r']| |] eqn:E; try reflexivity; cbn [rest_only];
          pose proof (f_equal rest_only E) as E'; rewrite <- global_text in E'; cbn [rest_only] in E'; apply read_global_shorter in E, E'.
        - rewrite !(IH f') by lia. reflexivity.
        - apply IH; lia. }
      rewrite !(IH f') by lia. reflexivity.
    - cbn [RXesModel.read_items]. rewrite !(IH f') by lia. reflexivity.
    - cbn [RXesModel.read_items]. apply IH; lia.
    - change (read_items (S f') g (tags_only l) = read_items f g l). apply IH; lia.
    - reflexivity.
  Qed.
  Lemma text_ignored l : read_log (tags_only l) = read_log l.
  Proof. unfold RXesModel.read_log. rewrite (items_text (S (length l))) by lia. reflexivity. Qed.

  (* ---- files that are cut ---- *)
  Lemma trace_open f : forall g l, length l < f -> good_entities l -> ~ In (TEnd (str "trace")) l -> ~ In TErr l -> read_trace f g l = Hangs.
  Proof.
    induction f as [|f IH]; intros g l L G N1 N2; [reflexivity|]. destruct l as [|t l]; [reflexivity|]. cbn in L. pose proof (good_tail _ _ G) as G'.
    assert (M1 : ~ In (TEnd (str "trace")) l) by (intros A; apply N1; right; assumption).
    assert (M2 : ~ In TErr l) by (intros A; apply N2; right; assumption).
    destruct t; cbn [RXesModel.read_trace]; try (apply IH; [lia|assumption..]).
    - destruct (str_eqb name _); [|apply IH; [lia|assumption..]].
      pose proof (event_no_panic l (defaults g) G') as NP. destruct (read_event (defaults g) l) as [[o r']| |] eqn:E; [|contradiction|reflexivity].
      pose proof (event_rest _ _ _ _ E) as I. apply read_event_shorter in E. rewrite IH; [reflexivity|lia|eapply good_incl; eassumption|intros A; apply M1, I, A|intros A; apply M2, I, A].
    - destruct (str_eqb name _) eqn:E; [|apply IH; [lia|assumption..]]. apply str_eqb_eq in E. subst. exfalso. apply N1. left. reflexivity.
    - exfalso. apply N2. left. reflexivity.
  Qed.

  Notation write_payload_tag := (write_payload_tag show_date show_f32 show_f64).
  Notation write_event := (write_event show_date show_f32 show_f64).
  Notation write_trace := (write_trace show_date show_f32 show_f64).
  Notation write_global := (write_global show_date show_f32 show_f64).

  Definition header (log : xlog) : list tok :=
    TStart (str "log") [] :: map write_extension (x_exts log) ++ map write_classifier (x_classifiers log) ++
    map write_payload_tag (sort_by_first (x_props log)) ++ flat_map write_global (ordered_globals (x_globals log)).
  Lemma write_log_header log : write_log log = header log ++ flat_map write_trace (x_traces log) ++ [TEnd (str "log")].
  Proof. unfold header, RXesModel.write_log. cbn [app]. rewrite <- !app_assoc. reflexivity. Qed.

  (* every token that is written *)
  Definition empty_like (t : tok) : Prop := exists n attrs, t = TEmpty n (map (fun kv => Some (fst kv, escape (snd kv))) attrs).
  Lemma empties_nested (ts : list tok) : Forall empty_like ts -> forall st r, nested st (ts ++ r) <-> nested st r.
  Proof. induction 1 as [|t ts (n & a & ->) _ IH]; intros st r; [reflexivity|]. cbn [app nested]. apply IH. Qed.
  Lemma tags_empty kvs : Forall empty_like (map write_payload_tag kvs).
  Proof. induction kvs as [|kv kvs IH]; constructor; [eexists _, _; reflexivity|assumption]. Qed.
  Lemma exts_empty xs : Forall empty_like (map write_extension xs).
  Proof. induction xs as [|kv kvs IH]; constructor; [eexists _, _; reflexivity|assumption]. Qed.
  Lemma cls_empty xs : Forall empty_like (map write_classifier xs).
  Proof. induction xs as [|kv kvs IH]; constructor; [eexists _, _; reflexivity|assumption]. Qed.

  Lemma event_shape e : exists ts, write_event e = TStart (str "event") [] :: ts ++ [TEnd (str "event")] /\ Forall empty_like ts.
  Proof.
    exists (write_empty (str "string") [(str "key", str "concept:name"); (str "value", x_name e)] ::
      write_empty (str "date") [(str "key", str "time:timestamp"); (str "value", show_date (x_time e))] :: map write_payload_tag (sort_by_first (x_payload e))).
    split; [reflexivity|]. constructor; [eexists _, _; reflexivity|]. constructor; [eexists _, _; reflexivity|]. apply tags_empty.
  Qed.
  Lemma events_nested es st r : nested st (flat_map write_event es ++ r) <-> nested st r.
  Proof.
    induction es as [|e es IH]; [reflexivity|]. cbn [flat_map]. rewrite <- app_assoc. destruct (event_shape e) as (ts & -> & F).
    cbn [app nested]. rewrite <- app_assoc. rewrite empties_nested by assumption. cbn [app nested]. rewrite IH. tauto.
  Qed.
  Lemma traces_nested ts st r : nested st (flat_map write_trace ts ++ r) <-> nested st r.
  Proof.
    induction ts as [|es ts IH]; [reflexivity|]. cbn [flat_map]. rewrite <- app_assoc. destruct es as [|e es]; [exact IH|].
    unfold RXesModel.write_trace at 1. cbn [app nested]. rewrite <- app_assoc, events_nested. cbn [app nested]. rewrite IH. tauto.
  Qed.
  Lemma globals_nested gs st r : nested st (flat_map write_global gs ++ r) <-> nested st r.
  Proof.
    induction gs as [|[s d] gs IH]; [reflexivity|]. cbn [flat_map]. rewrite <- app_assoc. unfold RXesModel.write_global at 1.
    cbn [app nested fst snd]. rewrite <- app_assoc, empties_nested by apply tags_empty. cbn [app nested]. rewrite IH. tauto.
  Qed.
  Lemma written_nested log : nested [] (write_log log).
  Proof.
    unfold RXesModel.write_log. cbn [nested]. rewrite empties_nested by apply exts_empty. rewrite empties_nested by apply cls_empty.
    rewrite empties_nested by apply tags_empty. rewrite globals_nested, traces_nested. cbn. split; reflexivity.
  Qed.

  (* entities *)
  Definition fine_tok (t : tok) : Prop :=
    match t with
    | TStart _ a | TEmpty _ a => good_attrs a
    | TErr => False
    | _ => True
    end.
  Lemma fine_good l : Forall fine_tok l -> good_entities l.
  Proof. intros F n a [H|H]; rewrite Forall_forall in F; exact (F _ H). Qed.
  Lemma fine_no_err l : Forall fine_tok l -> ~ In TErr l.
  Proof. intros F H. rewrite Forall_forall in F. exact (F _ H). Qed.
  Lemma escaped_good (attrs : list (pystr * pystr)) : good_attrs (map (fun kv => Some (fst kv, escape (snd kv))) attrs).
  Proof. intros k v H _. apply in_map_iff in H. destruct H as (kv & E & _). injection E as _ <-. rewrite unescape_escape. discriminate. Qed.
  Lemma nil_good : good_attrs []. Proof. intros k v []. Qed.
  Lemma empties_fine ts : Forall empty_like ts -> Forall fine_tok ts.
  Proof. intros F. eapply Forall_impl; [|exact F]. intros t (n & a & ->). apply escaped_good. Qed.
  Lemma events_fine es : Forall fine_tok (flat_map write_event es).
  Proof.
    induction es as [|e es IH]; [constructor|]. cbn [flat_map]. apply Forall_app. split; [|assumption]. destruct (event_shape e) as (ts & -> & F).
    constructor; [apply nil_good|]. apply Forall_app. split; [apply empties_fine; assumption|]. repeat constructor.
  Qed.
  Lemma traces_fine ts : Forall fine_tok (flat_map write_trace ts).
  Proof.
    induction ts as [|es ts IH]; [constructor|]. cbn [flat_map]. apply Forall_app. split; [|assumption]. destruct es as [|e es]; [constructor|].
    constructor; [apply nil_good|]. apply Forall_app. split; [apply events_fine|]. repeat constructor.
  Qed.
  Lemma header_fine log : Forall fine_tok (header log).
  Proof.
    unfold header. constructor; [apply nil_good|]. rewrite !Forall_app.
    split; [apply empties_fine, exts_empty|]. split; [apply empties_fine, cls_empty|]. split; [apply empties_fine, tags_empty|].
    generalize (ordered_globals (x_globals log)). induction l as [|[s d] gs IH]; [constructor|]. cbn [flat_map]. apply Forall_app. split; [|assumption].
    constructor; [exact (escaped_good [(str "scope", s)])|]. apply Forall_app. split; [apply empties_fine, tags_empty|]. repeat constructor.
  Qed.
  Lemma written_fine log : Forall fine_tok (write_log log).
  Proof. rewrite write_log_header, !Forall_app. split; [apply header_fine|]. split; [apply traces_fine|]. repeat constructor. Qed.
  Lemma written_read log : exists log', read_log (write_log log) = Fine log'.
  Proof. apply total; [apply written_nested|]. apply fine_good, written_fine. Qed.

  (* cuts *)
  Lemma header_no_trace log at_ : ~ In (TStart (str "trace") at_) (header log).
  Proof.
    assert (E : forall ts, Forall empty_like ts -> ~ In (TStart (str "trace") at_) ts).
    { intros ts F H. rewrite Forall_forall in F. destruct (F _ H) as (n & a & A). discriminate. }
    unfold header. intros [H|H]; [discriminate|]. rewrite !in_app_iff in H. destruct H as [H|[H|[H|H]]].
    - exact (E _ (exts_empty _) H).
    - exact (E _ (cls_empty _) H).
    - exact (E _ (tags_empty _) H).
    - revert H. generalize (ordered_globals (x_globals log)). induction l as [|[s d] gs IH]; [intros []|]. cbn [flat_map]. rewrite in_app_iff. intros [H|H]; [|exact (IH H)].
      unfold RXesModel.write_global in H. destruct H as [H|H]; [discriminate|]. apply in_app_iff in H. destruct H as [H|[H|[]]]; [exact (E _ (tags_empty _) H)|discriminate].
  Qed.
  Lemma events_no_end es : ~ In (TEnd (str "trace")) (flat_map write_event es).
  Proof.
    induction es as [|e es IH]; [intros []|]. cbn [flat_map]. rewrite in_app_iff. intros [H|H]; [|exact (IH H)].
    destruct (event_shape e) as (ts & E & F). rewrite E in H. destruct H as [H|H]; [discriminate|]. apply in_app_iff in H. destruct H as [H|[H|[]]]; [|discriminate].
    rewrite Forall_forall in F. destruct (F _ H) as (n & a & A). discriminate.
  Qed.

  Lemma app_split {A} (x1 : list A) : forall x2 y1 y2, x1 ++ x2 = y1 ++ y2 ->
    (exists l, x1 = y1 ++ l /\ y2 = l ++ x2) \/ (exists l, y1 = x1 ++ l /\ x2 = l ++ y2).
  Proof.
    induction x1 as [|a x1 IH]; intros x2 y1 y2 H; [right; exists y1; split; [reflexivity|exact H]|].
    destruct y1 as [|b y1]; [left; exists (a :: x1); split; [reflexivity|symmetry; exact H]|].
    cbn in H. injection H as <- H. destruct (IH _ _ _ H) as [(l & -> & ->)|(l & -> & ->)]; [left|right]; exists l; split; reflexivity.
  Qed.

  Definition flips (b : bool) (t : tok) : bool :=
    match t with TStart n _ => b || str_eqb n (str "trace") | TEnd n => b && negb (str_eqb n (str "trace")) | _ => b end.
  Lemma flips_other l b : (forall a, ~ In (TStart (str "trace") a) l) -> ~ In (TEnd (str "trace")) l -> fold_left flips l b = b.
  Proof.
    revert b. induction l as [|t l IH]; intros b H1 H2; [reflexivity|]. cbn [fold_left].
    rewrite IH; [|intros a A; apply (H1 a); right; assumption|intros A; apply H2; right; assumption].
    destruct t; cbn [flips]; try reflexivity.
    - destruct (str_eqb name (str "trace")) eqn:E; [apply str_eqb_eq in E; subst; exfalso; eapply H1; left; reflexivity|apply orb_false_r].
    - destruct (str_eqb name (str "trace")) eqn:E; [apply str_eqb_eq in E; subst; exfalso; apply H2; left; reflexivity|apply andb_true_r].
  Qed.
  Lemma events_no_start es a : ~ In (TStart (str "trace") a) (flat_map write_event es).
  Proof.
    induction es as [|e es IH]; [intros []|]. cbn [flat_map]. rewrite in_app_iff. intros [H|H]; [|exact (IH H)].
    destruct (event_shape e) as (ts & E & F). rewrite E in H. destruct H as [H|H]; [discriminate|]. apply in_app_iff in H. destruct H as [H|[H|[]]]; [|discriminate].
    rewrite Forall_forall in F. destruct (F _ H) as (n & a' & A). discriminate.
  Qed.
  Lemma trace_flips e es b : fold_left flips (write_trace (e :: es)) b = false.
  Proof.
    unfold RXesModel.write_trace. cbn [fold_left]. rewrite fold_left_app. cbn [fold_left flips]. change (str_eqb (str "trace") (str "trace")) with true. cbn [negb]. apply andb_false_r.
  Qed.

  Lemma cons_inj {A} (a b : A) x y : a :: x = b :: y -> a = b /\ x = y.
  Proof. intros H. injection H as -> ->. split; reflexivity. Qed.

  Lemma prefix_traces ts : forall a b, flat_map write_trace ts ++ [TEnd (str "log")] = a ++ b -> fold_left flips a false = true ->
    exists ts1 q, a = flat_map write_trace ts1 ++ TStart (str "trace") [] :: q /\ ~ In (TEnd (str "trace")) q /\ Forall fine_tok q.
  Proof.
    induction ts as [|es ts IH]; intros a b H A.
    - exfalso. destruct a as [|t [|]]; try discriminate. cbn in H. injection H as <- _. discriminate.
    - cbn [flat_map] in H. rewrite <- app_assoc in H. destruct es as [|e es]; [eapply IH; eassumption|].
      destruct (app_split _ _ _ _ H) as [(l & HX & _)|(l & HA & HR)].
      + pose proof (trace_flips e es false) as TF. rewrite HX in TF. destruct a as [|t a]; [discriminate|].
        change (write_trace (e :: es)) with (TStart (str "trace") [] :: flat_map write_event (e :: es) ++ [TEnd (str "trace")]) in HX.
        cbn [app] in HX. apply cons_inj in HX. destruct HX as [<- HX]. exists [], a. split; [reflexivity|].
        destruct (app_split _ _ _ _ HX) as [(l' & H1 & _)|(l' & H1 & H2)].
        * split; [intros I; apply (events_no_end (e :: es)); rewrite H1; apply in_or_app; left; assumption|].
          pose proof (events_fine (e :: es)) as F. rewrite H1, Forall_app in F. apply F.
        * destruct l' as [|t' l']; [rewrite app_nil_r in H1; subst a; split; [apply events_no_end|apply events_fine]|].
          cbn in H2. injection H2 as <- H2. destruct l' as [|]; [|discriminate]. cbn in H2. subst l. rewrite app_nil_r in TF. congruence.
      + subst a. rewrite fold_left_app, trace_flips in A. destruct (IH l b HR A) as (ts1 & q & E & N & F). exists ((e :: es) :: ts1), q.
        split; [|split; assumption]. rewrite E. cbn [flat_map]. rewrite <- app_assoc. reflexivity.
  Qed.

  Lemma items_header log X : sound date f32 f64 log -> exists is g, items_of [] (header log ++ X) = prepend date f32 f64 is (items_of g X) /\
    forall Y, items_of [] (header log ++ Y) = prepend date f32 f64 is (items_of g Y).
  Proof.
    intros S. assert (A : exists is g, forall Y, items_of [] (header log ++ Y) = prepend date f32 f64 is (items_of g Y)).
    { eexists _, _. intros Y. unfold header. cbn [app]. rewrite <- !app_assoc. rewrite items_log by assumption. rewrite items_exts, items_classes, items_props, items_globals.
      - rewrite !prepend_app. reflexivity.
      - eapply Permutation_NoDup; [apply ordered_keys|apply (s_globals _ _ _ _ S)].
      - intros s _ []. }
    destruct A as (is & g & A). exists is, g. split; [apply A|exact A].
  Qed.

  Lemma cut_hangs log a b : sound date f32 f64 log -> write_log log = a ++ b -> in_trace a = true -> read_log a = Hangs.
  Proof.
    intros S H I. rewrite write_log_header in H. change (in_trace a) with (fold_left flips a false) in I.
    assert (HF : fold_left flips (header log) false = false).
    { assert (G : forall l, (forall t, In t l -> (forall at_, t <> TStart (str "trace") at_)) -> fold_left flips l false = false).
      { induction l as [|t l IH]; intros Q; [reflexivity|]. cbn [fold_left]. assert (flips false t = false) as ->.
        - destruct t; try reflexivity. cbn [flips orb]. destruct (str_eqb name (str "trace")) eqn:E; [|reflexivity]. apply str_eqb_eq in E. subst. exfalso. eapply Q; [left; reflexivity|reflexivity].
        - apply IH. intros t' Ht. apply Q. right. assumption. }
      apply G. intros t Ht at_ ->. exact (header_no_trace _ _ Ht). }
    destruct (app_split _ _ _ _ H) as [(l & HX & _)|(l & HA & HR)].
    - exfalso. assert (G : forall l, fold_left flips l false = true -> exists at_, In (TStart (str "trace") at_) l).
      { clear. assert (G : forall l b, fold_left flips l b = true -> b = true \/ exists at_, In (TStart (str "trace") at_) l).
        { induction l as [|t l IH]; intros b H; [left; exact H|]. cbn [fold_left] in H. apply IH in H. destruct H as [H|(at_ & H)]; [|right; exists at_; right; exact H].
          destruct t; cbn [flips] in H; try (left; exact H).
          - apply orb_true_iff in H. destruct H as [H|H]; [left; exact H|]. apply str_eqb_eq in H. subst. right. eexists. left. reflexivity.
          - apply andb_true_iff in H. left. apply H. }
        intros l H. destruct (G l false H) as [H'|H']; [discriminate|exact H']. }
      destruct (G a I) as (at_ & Ha). apply (header_no_trace log at_). rewrite HX. apply in_or_app. left. exact Ha.
    - subst a. rewrite fold_left_app, HF in I. destruct (prefix_traces _ _ _ HR I) as (ts1 & q & E & N & F).
      unfold RXesModel.read_log. change (read_items (Datatypes.S (length (header log ++ l))) [] (header log ++ l)) with (items_of [] (header log ++ l)).
      destruct (items_header log l S) as (is & g & -> & _). rewrite E, items_traces, items_start.
      assert (trace_of g q = Hangs) as ->; [|reflexivity].
      apply trace_open; [lia|apply fine_good; assumption|assumption|apply fine_no_err; assumption].
  Qed.

  Lemma cut_between log ts1 ts2 : sound date f32 f64 log -> exists a b,
    write_log (with_traces log (ts1 ++ ts2)) = a ++ b /\ read_log a = read_log (write_log (with_traces log ts1)) /\
    forall rest, read_log (a ++ TErr :: rest) = read_log (write_log (with_traces log ts1)).
  Proof.
    intros S. exists (header log ++ flat_map write_trace ts1), (flat_map write_trace ts2 ++ [TEnd (str "log")]).
    rewrite !write_log_header. change (header (with_traces log (ts1 ++ ts2))) with (header log). change (header (with_traces log ts1)) with (header log).
    cbn [with_traces x_traces]. split; [rewrite flat_map_app, <- !app_assoc; reflexivity|].
    destruct (items_header log [] S) as (is & g & _ & E).
    assert (C : forall X, items_of g X = Fine [] -> read_log (header log ++ flat_map write_trace ts1 ++ X) = read_log (header log ++ flat_map write_trace ts1)).
    { intros X HX. unfold RXesModel.read_log.
      match goal with |- match ?x with _ => _ end = match ?y with _ => _ end => change x with (items_of [] (header log ++ flat_map write_trace ts1 ++ X)); change y with (items_of [] (header log ++ flat_map write_trace ts1)) end.
      rewrite !E. rewrite <- (app_nil_r (flat_map write_trace ts1)) at 2. rewrite !items_traces, HX. reflexivity. }
    split; [symmetry; apply C; reflexivity|]. intros rest. rewrite <- app_assoc. rewrite !C; reflexivity.
  Qed.
End Robust.

Lemma written_both (date f32 f64 : Type) (show_date : date -> pystr) (show_f32 : f32 -> pystr) (show_f64 : f64 -> pystr) log :
  nested [] (write_log show_date show_f32 show_f64 log) /\ good_entities (write_log show_date show_f32 show_f64 log).
Proof. split; [apply written_nested|apply fine_good, written_fine]; exact (fun _ => None). Qed.

Lemma always_ends_refuted (date f32 f64 : Type) (parse_date : pystr -> option date) (parse_f64 : pystr -> option f64) (parse_uuid : pystr -> option uuid) :
  exists l, good_entities l /\ read_log f32 parse_date parse_f64 parse_uuid l = Hangs.
Proof.
  exists [TStart (str "log") []; TStart (str "trace") []]. split; [|reflexivity].
  intros n a [H|H]; repeat (destruct H as [H|H]; [try discriminate H; injection H as <- <-; intros k v []|]); destruct H.
Qed.
Lemma never_panics_refuted (date f32 f64 : Type) (parse_date : pystr -> option date) (parse_f64 : pystr -> option f64) (parse_uuid : pystr -> option uuid) :
  exists l, nested [] l /\ read_log f32 parse_date parse_f64 parse_uuid l = Panics.
Proof.
  exists [TStart (str "log") []; TEmpty (str "string") [Some (str "key", str "a"); Some (str "value", str "&nbsp;")]; TEnd (str "log")].
  split; [cbn; repeat split|reflexivity].
Qed.
