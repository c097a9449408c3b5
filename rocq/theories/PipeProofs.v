From Verif Require Import Py PyFacts LogModel HeapModel HeapSpec HeapProofs PipeModel PipeSpec.

(** Steps. *)
Lemma steps_weaken K h K' h' : steps K h K' h' -> forall L : loc -> Prop, (forall x, K x -> L x) -> steps L h K' h'.
Proof.
  induction 1 as [K K' h Hk|K K' h h' l o x Hl Ho Hx Hs IH|K K' h h' o Ho Hs IH|K K' h h' l o Hl Ho Hs IH]; intros L HL.
  - apply steps_done. auto.
  - eapply steps_read; eauto. apply IH. intros y [->|Hy]; auto.
  - eapply steps_new; eauto. apply IH. intros y [->|Hy]; auto.
  - eapply steps_write; eauto.
Qed.
Lemma steps_shrink K h K' h' : steps K h K' h' -> forall L : loc -> Prop, (forall x, L x -> K' x) -> steps K h L h'.
Proof.
  induction 1 as [K K' h Hk|K K' h h' l o x Hl Ho Hx Hs IH|K K' h h' o Ho Hs IH|K K' h h' l o Hl Ho Hs IH]; intros L HL.
  - apply steps_done. auto.
  - eapply steps_read; eauto.
  - eapply steps_new; eauto.
  - eapply steps_write; eauto.
Qed.
Lemma steps_keep K h K' h' : steps K h K' h' -> steps K h (fun x => K x \/ K' x) h'.
Proof.
  induction 1 as [K K' h Hk|K K' h h' l o x Hl Ho Hx Hs IH|K K' h h' o Ho Hs IH|K K' h h' l o Hl Ho Hs IH].
  - apply steps_done. intros x [Hx|Hx]; auto.
  - eapply steps_read; eauto. eapply steps_shrink; [exact IH|]. cbn. tauto.
  - eapply steps_new; eauto. eapply steps_shrink; [exact IH|]. cbn. tauto.
  - eapply steps_write; eauto.
Qed.
Lemma steps_trans K h K1 h1 : steps K h K1 h1 -> forall K2 h2, steps K1 h1 K2 h2 -> steps K h K2 h2.
Proof.
  induction 1 as [K K' h Hk|K K' h h' l o x Hl Ho Hx Hs IH|K K' h h' o Ho Hs IH|K K' h h' l o Hl Ho Hs IH]; intros K2 h2 H2.
  - eapply steps_weaken; eauto.
  - eapply steps_read; eauto.
  - eapply steps_new; eauto.
  - eapply steps_write; eauto.
Qed.

(** Everything happens inside a set of objects closed under references. *)
Lemma steps_inside K h K' h' : steps K h K' h' -> forall S : loc -> Prop,
  (forall x, K x -> S x) -> (forall x, next h <= x -> S x) -> (forall l o y, S l -> cells h l = Some o -> In y (refs o) -> S y) ->
  closed h -> (forall x, K x -> x < next h) ->
  closed h' /\ next h <= next h' /\ (forall x, K' x -> S x /\ x < next h') /\ (forall l o y, S l -> cells h' l = Some o -> In y (refs o) -> S y) /\
  (forall x, ~ S x -> cells h' x = cells h x).
Proof.
  induction 1 as [K K' h Hk|K K' h h' l o x Hl Ho Hx Hs IH|K K' h h' o Ho Hs IH|K K' h h' l o Hl Ho Hs IH]; intros S HK Hn HS Hc Hb.
  - repeat split; auto; apply Hc.
  - apply IH; auto.
    + intros y [->|Hy]; eauto.
    + intros y [->|Hy]; [|auto]. destruct Hc as [_ Hc]. eauto.
  - assert (Hc1 : closed (fst (alloc o h))) by (apply closed_alloc; auto).
    destruct (IH S) as (J1 & J2 & J3 & J4 & J5); auto.
    + intros y [->|Hy]; auto.
    + intros y Hy. cbn in Hy. apply Hn. lia.
    + intros q o' y Hq Hq' Hy. cbn in Hq'. unfold upd in Hq'. destruct (Nat.eq_dec q (next h)); [injection Hq' as <-; auto|eauto].
    + intros y [->|Hy]; cbn; [lia|]. apply Hb in Hy. lia.
    + cbn in J2. split; [exact J1|]. split; [lia|]. split; [exact J3|]. split; [exact J4|]. intros y Hy. rewrite J5 by exact Hy. cbn. unfold upd. destruct (Nat.eq_dec y (next h)) as [->|]; [exfalso; apply Hy, Hn; lia|reflexivity].
  - assert (Hc1 : closed (fst (poke l o h))) by (apply closed_poke; auto).
    destruct (IH S) as (J1 & J2 & J3 & J4 & J5); auto.
    + intros q o' y Hq Hq' Hy. cbn in Hq'. unfold upd in Hq'. destruct (Nat.eq_dec q l); [injection Hq' as <-; auto|eauto].
    + split; [exact J1|]. split; [exact J2|]. split; [exact J3|]. split; [exact J4|]. intros y Hy. rewrite J5 by exact Hy. cbn. unfold upd. destruct (Nat.eq_dec y l) as [->|]; [exfalso; apply Hy; auto|reflexivity].
Qed.

Definition around (K : loc -> Prop) (h : heap) (x : loc) : Prop := (exists k, K k /\ reach h k x) \/ next h <= x.
Lemma around_closed K h : closed h -> forall l o y, around K h l -> cells h l = Some o -> In y (refs o) -> around K h y.
Proof.
  intros [Ha Hc] l o y [(k & Hk & Hr)|Hl] Ho Hy.
  - left. exists k. split; [exact Hk|]. eapply reach_trans; [exact Hr|]. eapply reach_one; eauto.
  - rewrite Ha in Ho by exact Hl. discriminate.
Qed.

Lemma steps_around K h K' h' : steps K h K' h' -> closed h -> (forall x, K x -> x < next h) ->
  closed h' /\ next h <= next h' /\ (forall x, K' x -> around K h x /\ x < next h') /\
  (forall l o y, around K h l -> cells h' l = Some o -> In y (refs o) -> around K h y) /\ (forall x, ~ around K h x -> cells h' x = cells h x).
Proof.
  intros Hs Hc Hb. apply (steps_inside K h K' h' Hs (around K h)); auto.
  - intros x Hx. left. exists x. split; [exact Hx|constructor].
  - intros x Hx. now right.
  - now apply around_closed.
Qed.

Section Pipes.
  Variable X : Type.
  Notation world := (world X).
  Notation act := (act X).
  Variable G : loc -> Prop.

  Lemma confined_bind {A B} g1 (out1 : A -> list loc) (out2 : B -> list loc) (m : act A) (f : A -> act B) :
    confined G g1 out1 m -> (forall a, confined G (out1 a ++ g1) out2 (f a)) -> confined G g1 out2 (abind m f).
  Proof.
    intros Hm Hf w w' r Hc Hb E. unfold abind in E. destruct (m w) as [w1 r1] eqn:E1. destruct (Hm w w1 r1 Hc Hb E1) as (K1 & S1 & G1 & O1).
    destruct (steps_around _ _ _ _ (steps_keep _ _ _ _ S1) Hc Hb) as (C1 & N1 & B1 & _ & _).
    destruct r1 as [a|e].
    - destruct (Hf a w1 w' r C1) as (K2 & S2 & G2 & O2).
      + intros x [Hx|Hx]; [|apply B1; auto]. apply in_app_or in Hx. destruct Hx as [Hx|Hx]; apply B1; [right; eapply O1; eauto|left; now left].
      + exact E.
      + exists K2. split; [|auto]. eapply steps_trans; [apply (steps_keep _ _ _ _ S1)|]. eapply steps_weaken; [exact S2|]. cbn. intros x [Hx|Hx]; [|tauto].
        apply in_app_or in Hx. destruct Hx as [Hx|Hx]; [right; eapply O1; eauto|left; now left].
    - injection E as <- <-. exists K1. split; [exact S1|]. split; [exact G1|]. intros; discriminate.
  Qed.

  Lemma confined_weaken {A} g1 g2 (out : A -> list loc) (m : act A) : incl g1 g2 -> confined G g1 out m -> confined G g2 out m.
  Proof.
    intros Hi Hm w w' r Hc Hb E. destruct (Hm w w' r Hc) as (K1 & S1 & G1 & O1); [intros x [Hx|Hx]; apply Hb; auto|exact E|].
    exists K1. split; [|auto]. eapply steps_weaken; [exact S1|]. cbn. intros x [Hx|Hx]; auto.
  Qed.
  Lemma confined_ret {A} g (out : A -> list loc) a : incl (out a) g -> confined G g out (aret a : act A).
  Proof. intros Hi w w' r Hc Hb [= <- <-]. exists (fun x => In x g \/ G x). split; [apply steps_done; auto|]. split; [auto|]. intros a' [= <-] x Hx. left. now apply Hi. Qed.
  Lemma confined_reset g : confined G g (fun _ : unit => []) (@reset_colors X).
  Proof. intros w w' r Hc Hb [= <- <-]. exists (fun x => In x g \/ G x). split; [apply steps_done; auto|]. split; [auto|]. intros a _ x []. Qed.

  (** copy.copy is confined. *)
  Definition hconfined {A} (given : list loc) (out : A -> list loc) (m : H A) : Prop :=
    forall h h' r, m h = (h', r) ->
    exists K', steps (fun x => In x given \/ G x) h K' h' /\ (forall x, In x given \/ G x -> K' x) /\ (forall a, r = Ok a -> forall x, In x (out a) -> K' x).
  Lemma hc_bind {A B} g1 (out1 : A -> list loc) (out2 : B -> list loc) (m : H A) (f : A -> H B) :
    hconfined g1 out1 m -> (forall a, hconfined (out1 a ++ g1) out2 (f a)) -> hconfined g1 out2 (hbind m f).
  Proof.
    intros Hm Hf h h' r E. unfold hbind in E. destruct (m h) as [h1 r1] eqn:E1. destruct (Hm h h1 r1 E1) as (K1 & S1 & G1 & O1). destruct r1 as [a|e].
    - destruct (Hf a h1 h' r E) as (K2 & S2 & G2 & O2). exists K2. split; [|split; [|exact O2]].
      + eapply steps_trans; [exact S1|]. eapply steps_weaken; [exact S2|]. cbn. intros x [Hx|Hx]; [|apply G1; auto]. apply in_app_or in Hx. destruct Hx as [Hx|Hx]; [eapply O1; eauto|apply G1; auto].
      + intros x Hx. apply G2. rewrite in_app_iff. tauto.
    - injection E as <- <-. exists K1. split; [exact S1|]. split; [exact G1|]. intros; discriminate.
  Qed.
  Lemma hc_ret {A} g (out : A -> list loc) a : incl (out a) g -> hconfined g out (ret a).
  Proof. intros Hi h h' r [= <- <-]. exists (fun x => In x g \/ G x). split; [apply steps_done; auto|]. split; [auto|]. intros a' [= <-] x Hx. left. now apply Hi. Qed.
  Lemma hc_fail {A} g (out : A -> list loc) e : hconfined g out (fail e).
  Proof. intros h h' r [= <- <-]. exists (fun x => In x g \/ G x). split; [apply steps_done; auto|]. split; [auto|]. intros; discriminate. Qed.
  Lemma hc_peek g l : In l g -> hconfined g refs (peek l).
  Proof.
    intros Hi h h' r E. injection E as <- <-. destruct (cells h l) as [o|] eqn:Eo.
    - assert (Hgen : forall xs, incl xs (refs o) -> steps (fun x => In x g \/ G x) h (fun x => (In x g \/ G x) \/ In x xs) h).
      { induction xs as [|x xs IH]; intro Hx; [apply steps_done; cbn; tauto|]. eapply steps_trans; [apply IH; intros y Hy; apply Hx; now right|].
        eapply steps_read; [left; left; exact Hi|exact Eo|apply Hx; now left|]. apply steps_done. cbn. intuition. }
      exists (fun x => (In x g \/ G x) \/ In x (refs o)). split; [apply Hgen, incl_refl|]. split; [auto|]. intros a [= <-] x Hx. now right.
    - exists (fun x => In x g \/ G x). split; [apply steps_done; auto|]. split; [auto|]. intros; discriminate.
  Qed.
  Lemma hc_deref v : hconfined (vref v) refs (deref v).
  Proof. destruct v; cbn; [apply hc_fail|apply hc_peek; now left]. Qed.
  Lemma hc_alloc g o : incl (refs o) g -> hconfined g (fun l => [l]) (alloc o).
  Proof.
    intros Hi h h' r E. assert (Eh : h' = fst (alloc o h)) by now rewrite E. assert (Er : r = snd (alloc o h)) by now rewrite E. cbn in Er. subst r.
    rewrite Eh. exists (fun x => x = next h \/ (In x g \/ G x)). split; [|split; [auto|]].
    - eapply steps_new; [intros x Hx; left; apply Hi, Hx|]. apply steps_done. auto.
    - intros a [= <-] x [<-|[]]. now left.
  Qed.
  Lemma hc_weaken {A} g1 g2 (out : A -> list loc) m : incl g1 g2 -> hconfined g1 out m -> hconfined g2 out m.
  Proof.
    intros Hi Hm h h' r E. destruct (Hm h h' r E) as (K1 & S1 & G1 & O1). exists (fun x => (In x g2 \/ G x) \/ K1 x). split; [|split; [auto|]].
    - apply steps_keep. eapply steps_weaken; [exact S1|]. cbn. intros x [Hx|Hx]; auto.
    - intros a Ha x Hx. right. eauto.
  Qed.
  Lemma hc_poke g l o : In l g -> incl (refs o) g -> hconfined g (fun _ => []) (poke l o).
  Proof.
    intros Hl Hi h h' r E. assert (Eh : h' = fst (poke l o h)) by now rewrite E. subst. exists (fun x => In x g \/ G x). split; [|split; [auto|intros a _ x []]].
    eapply steps_write; [left; exact Hl|intros x Hx; left; apply Hi, Hx|]. apply steps_done. auto.
  Qed.
  Lemma hc_as_list v : hconfined (vref v) (flat_map vref) (as_list v).
  Proof. unfold as_list. eapply hc_bind; [apply hc_deref|]. intros []; try apply hc_fail. apply hc_ret. cbn. apply incl_appl, incl_refl. Qed.
  Lemma hc_as_dict v : hconfined (vref v) (flat_map (fun kv => vref (snd kv))) (as_dict v).
  Proof. unfold as_dict. eapply hc_bind; [apply hc_deref|]. intros []; try apply hc_fail. apply hc_ret. cbn. apply incl_appl, incl_refl. Qed.
  Lemma hc_shallow_dict v : hconfined (vref v) vref (shallow_dict v).
  Proof.
    unfold shallow_dict. eapply hc_bind; [apply hc_as_dict|]. intro d. eapply hc_bind; [apply hc_alloc; cbn; apply incl_appl, incl_refl|]. intro l. apply hc_ret. cbn. intros x [<-|[]]. now left.
  Qed.
  Lemma hc_shallow_copy v : hconfined (vref v) vref (shallow_copy v).
  Proof.
    unfold shallow_copy. eapply hc_bind; [apply hc_deref|].
    assert (Hend : forall g o, incl (refs o) g -> hconfined g vref (hbind (alloc o) (fun l => ret (HRef l)))).
    { intros g o Hi. eapply hc_bind; [apply hc_alloc, Hi|]. intro l. apply hc_ret. cbn. intros x [<-|[]]. now left. }
    assert (Hd : forall g u, incl (vref u) g -> hconfined g vref (shallow_dict u)).
    { intros g u Hi. eapply hc_weaken; [exact Hi|apply hc_shallow_dict]. }
    intros [xs|d|p|evs at_|t a e c p g|d|d].
    - apply Hend. apply incl_appl, incl_refl.
    - apply Hend. apply incl_appl, incl_refl.
    - eapply hc_bind; [apply Hd; cbn; apply incl_appl, incl_refl|]. intro p'. apply Hend. cbn. apply incl_appl, incl_refl.
    - eapply hc_bind; [eapply hc_weaken; [|apply hc_as_list]; cbn; inl|]. intro xs.
      eapply hc_bind; [apply hc_alloc; cbn; inl|]. intro l1. eapply hc_bind; [apply hc_alloc; cbn; inl|]. intro l2. apply Hend. cbn. inl.
    - eapply hc_bind; [eapply hc_weaken; [|apply hc_as_list]; cbn; inl|]. intro xs.
      eapply hc_bind; [apply hc_alloc; cbn; inl|]. intro l1.
      eapply hc_bind; [apply Hd; cbn; inl|]. intro a'. eapply hc_bind; [apply Hd; cbn; inl|]. intro e'.
      eapply hc_bind; [apply Hd; cbn; inl|]. intro c'. eapply hc_bind; [apply Hd; cbn; inl|]. intro p'.
      eapply hc_bind; [apply hc_alloc; cbn; inl|]. intro l2. apply Hend. cbn. inl.
    - apply Hend. apply incl_appl, incl_refl.
    - apply Hend. apply incl_appl, incl_refl.
  Qed.
  Lemma hc_copy_any v : hconfined (vref v) vref (copy_any v).
  Proof. destruct v; cbn [copy_any]; [apply hc_ret, incl_refl|apply hc_shallow_copy]. Qed.

  Lemma confined_lift {A} g (out : A -> list loc) (m : H A) : hconfined g out m -> confined G g out (lift m : act A).
  Proof.
    intros Hm w w' r Hc Hb E. unfold lift in E. destruct (m (w_heap w)) as [h1 r1] eqn:E1. injection E as <- <-. destruct (Hm _ _ _ E1) as (K1 & S1 & G1 & O1).
    exists K1. cbn. auto.
  Qed.

  Lemma run_parts_confined (parts : list (part X)) : (forall p, In p parts -> forall v, confined G (vref v) vref (exec_part p v)) -> forall v, confined G (vref v) vref (run_parts exec_part parts v).
  Proof.
    induction parts as [|p parts IH]; intros Hp v; cbn; [apply confined_ret, incl_refl|].
    eapply confined_bind; [apply Hp; now left|]. intro v1. eapply confined_weaken; [|apply IH; intros q Hq; apply Hp; now right]. apply incl_appl, incl_refl.
  Qed.
  Lemma run_pipeline_confined (parts : list (part X)) : (forall p, In p parts -> forall v, confined G (vref v) vref (exec_part p v)) -> forall v, confined G (vref v) vref (run_pipeline exec_part parts v).
  Proof.
    intros Hp v. unfold run_pipeline. eapply confined_bind; [apply confined_reset|]. intros []. eapply confined_weaken; [|apply run_parts_confined, Hp]. cbn. apply incl_refl.
  Qed.

  Lemma exec_part_confined (p : part X) : part_confined G p -> forall v, confined G (vref v) vref (exec_part p v).
  Proof.
    induction 1 as [f Hf|ps Hps IH|tr mg q Htr Hmg Hq IH|q Hq IH|cond q Hcond Hq IH]; intro v; cbn [exec_part].
    - apply Hf.
    - assert (Hgen : forall last, confined G (vref last ++ vref v) vref (run_branches exec_part ps v last)).
      { clear Hps. induction ps as [|q ps IHps]; intro last; cbn [run_branches]; [apply confined_ret; cbn; apply incl_appl, incl_refl|].
        eapply confined_bind; [eapply confined_weaken; [|apply confined_lift, hc_copy_any]; apply incl_appr, incl_refl|]. intro c.
        eapply confined_bind; [eapply confined_weaken; [|apply run_pipeline_confined, IH; now left]; apply incl_appl, incl_refl|]. intro v1.
        eapply confined_weaken; [|apply IHps; intros q' Hq'; apply IH; now right]. inl. }
      apply (Hgen py_none).
    - eapply confined_bind; [apply Htr|]. intro t. eapply confined_bind; [eapply confined_weaken; [|apply run_pipeline_confined, IH]; apply incl_appl, incl_refl|]. intro r.
      eapply confined_weaken; [|apply Hmg]. inl.
    - eapply confined_bind; [apply confined_lift, hc_copy_any|]. intro c. eapply confined_bind; [eapply confined_weaken; [|apply run_pipeline_confined, IH]; apply incl_appl, incl_refl|]. intro r.
      apply confined_ret. inl.
    - eapply confined_bind; [apply Hcond|]. intros []; [eapply confined_weaken; [|apply run_pipeline_confined, IH]; cbn; apply incl_refl|apply confined_ret; cbn; apply incl_refl].
  Qed.

  Lemma exec_pipeline_confined_proof (parts : list (part X)) : (forall p, In p parts -> part_confined G p) -> forall v, confined G (vref v) vref (exec_pipeline parts v).
  Proof. intros Hp v. apply run_pipeline_confined. intros p Hin. apply exec_part_confined, Hp, Hin. Qed.

  (** A pipeline run on a copy of a private context leaves the context alone, and private. *)
  Lemma on_copy (parts : list (part X)) h ctx d w1 w2 r :
    (forall p, In p parts -> part_confined G p) -> closed h -> (forall x, G x -> x < next h) -> private G h ctx d ->
    w_heap w1 = fst (alloc (OCtx d) h) -> exec_pipeline parts (HRef (next h)) w1 = (w2, r) ->
    closed (w_heap w2) /\ (forall x, G x -> x < next (w_heap w2)) /\ private G (w_heap w2) ctx d.
  Proof.
    intros Hp Hc HG [Hctx Hpriv] Hw1 E. pose proof Hc as [Ha Hcl].
    assert (Hctxlt : ctx < next h) by (destruct (le_lt_dec (next h) ctx) as [Hle|]; [rewrite Ha in Hctx by exact Hle; discriminate|assumption]).
    assert (Hc1 : closed (w_heap w1)) by (rewrite Hw1; apply closed_alloc; [exact Hc|]; intros x Hx; eapply Hcl; eauto).
    assert (Hn1 : next (w_heap w1) = S (next h)) by (rewrite Hw1; reflexivity).
    assert (Hcell1 : forall x, x < next h -> cells (w_heap w1) x = cells h x) by (intros x Hx; rewrite Hw1; cbn; unfold upd; destruct (Nat.eq_dec x (next h)); [lia|reflexivity]).
    assert (Hcellc : cells (w_heap w1) (next h) = Some (OCtx d)) by (rewrite Hw1; cbn; unfold upd; destruct (Nat.eq_dec (next h) (next h)); congruence).
    destruct (exec_pipeline_confined_proof parts Hp (HRef (next h)) w1 w2 r Hc1) as (K & Hs & HGK & _); [|exact E|].
    { cbn. intros x [[<-|[]]|Hx]; [lia|]. apply HG in Hx. lia. }
    set (K0 := fun x => In x (vref (HRef (next h))) \/ G x) in *.
    destruct (steps_around _ _ _ _ Hs Hc1) as (C2 & N2 & B2 & R2 & F2).
    { unfold K0. cbn. intros x [[<-|[]]|Hx]; [lia|]. apply HG in Hx. lia. }
    (* the context is not around *)
    assert (Hnot : ~ around K0 (w_heap w1) ctx).
    { intros [(k & Hk & Hr)|Hge]; [|lia].
      assert (Hold : forall y x, reach (w_heap w1) y x -> y < next h -> x < next h /\ reach h y x).
      { intros y x Hr' Hlt. eapply (reach_old h (w_heap w1) (next h)); eauto. }
      destruct Hk as [[<-|[]]|Hk].
      - inversion Hr as [|? o y ? Ho Hy Hr']; subst; [lia|]. rewrite Hcellc in Ho. injection Ho as <-. apply Hold in Hr'; [|eapply Hcl; eauto]. apply (Hpriv y); [now right|]. apply Hr'.
      - apply Hold in Hr; [|apply HG, Hk]. apply (Hpriv k); [now left|]. apply Hr. }
    split; [exact C2|]. split; [intros x Hx; apply HG in Hx; lia|]. split.
    - rewrite F2 by exact Hnot. rewrite Hcell1 by exact Hctxlt. exact Hctx.
    - intros x Hx Hr. apply Hnot.
      assert (Hxin : around K0 (w_heap w1) x).
      { left. destruct Hx as [Hx|Hx]; [exists x; split; [right; exact Hx|constructor]|]. exists (next h). split; [left; now left|]. eapply reach_one; eauto. }
      revert Hr Hxin. apply (reach_inside (w_heap w2) (around K0 (w_heap w1))). eauto.
  Qed.

  Lemma copy_ctx h ctx d : cells h ctx = Some (OCtx d) -> copy_any (HRef ctx) h = (fst (alloc (OCtx d) h), Ok (HRef (next h))).
  Proof. intro Hc. cbn [copy_any]. unfold shallow_copy. unfold hbind at 1. cbn [deref peek]. rewrite Hc. reflexivity. Qed.

  Lemma input_copy_proof (parts : list (part X)) w w' r ctx d :
    (forall p, In p parts -> part_confined G p) -> closed (w_heap w) -> (forall x, G x -> x < next (w_heap w)) -> private G (w_heap w) ctx d ->
    exec_part (InputCopy parts) (HRef ctx) w = (w', r) ->
    cells (w_heap w') ctx = Some (OCtx d) /\
    exists c w1 r1, started w d c w1 /\ exec_pipeline parts (HRef c) w1 = (w', r1) /\
      r = match r1 with Ok _ => Ok (HRef ctx) | Err e => Err e end.
  Proof.
    intros Hp Hc HG Hpr E. cbn [exec_part] in E. unfold abind at 1, lift in E. rewrite (copy_ctx _ _ _ (proj1 Hpr)) in E.
    set (w1 := mkWorld (fst (alloc (OCtx d) (w_heap w))) (w_colors w) (w_rest w)) in *. unfold abind at 1 in E. fold (exec_pipeline parts) in E. fold (exec_pipeline parts (HRef (next (w_heap w))) w1) in E.
    destruct (exec_pipeline parts (HRef (next (w_heap w))) w1) as [w2 r2] eqn:E2.
    destruct (on_copy parts (w_heap w) ctx d w1 w2 r2 Hp Hc HG Hpr eq_refl E2) as (_ & _ & [Hctx _]).
    assert (Hst : started w d (next (w_heap w)) w1).
    { split; [reflexivity|]. cbn. split; [unfold upd; destruct (Nat.eq_dec (next (w_heap w)) (next (w_heap w))); congruence|]. split; [|auto]. intros x Hx. unfold upd. destruct (Nat.eq_dec x (next (w_heap w))); congruence. }
    destruct r2 as [v|e].
    - injection E as <- <-. split; [exact Hctx|]. exists (next (w_heap w)), w1. eexists. split; [exact Hst|]. split; [exact E2|reflexivity].
    - injection E as <- <-. split; [exact Hctx|]. exists (next (w_heap w)), w1. eexists. split; [exact Hst|]. split; [exact E2|reflexivity].
  Qed.

  Lemma parallel_proof (ps : list (list (part X))) w w' r ctx d :
    (forall q, In q ps -> forall p, In p q -> part_confined G p) -> closed (w_heap w) -> (forall x, G x -> x < next (w_heap w)) -> private G (w_heap w) ctx d ->
    exec_part (Parallel ps) (HRef ctx) w = (w', r) ->
    cells (w_heap w') ctx = Some (OCtx d) /\ branches ctx d ps py_none w w' r.
  Proof.
    cbn [exec_part]. generalize py_none. revert w. induction ps as [|q ps IH]; intros w last Hp Hc HG Hpr E; cbn [run_branches] in E.
    - injection E as <- <-. split; [apply Hpr|constructor].
    - unfold abind at 1, lift in E. rewrite (copy_ctx _ _ _ (proj1 Hpr)) in E.
      set (w1 := mkWorld (fst (alloc (OCtx d) (w_heap w))) (w_colors w) (w_rest w)) in *. unfold abind at 1 in E. fold (exec_pipeline q) in E. fold (exec_pipeline q (HRef (next (w_heap w))) w1) in E.
      destruct (exec_pipeline q (HRef (next (w_heap w))) w1) as [w2 r2] eqn:E2.
      destruct (on_copy q (w_heap w) ctx d w1 w2 r2) as (C2 & G2 & P2); auto; [apply Hp; now left|].
      assert (Hst : started w d (next (w_heap w)) w1).
      { split; [reflexivity|]. cbn. split; [unfold upd; destruct (Nat.eq_dec (next (w_heap w)) (next (w_heap w))); congruence|]. split; [|auto]. intros x Hx. unfold upd. destruct (Nat.eq_dec x (next (w_heap w))); congruence. }
      destruct r2 as [v|e].
      + destruct (IH w2 v) as [Hctx Hb]; auto; [intros q' Hq'; apply Hp; now right|]. split; [exact Hctx|]. eapply br_cons; eauto. apply Hpr.
      + injection E as <- <-. split; [apply P2|]. eapply br_err; eauto. apply Hpr.
  Qed.
End Pipes.

(** Sequential composition. *)
Lemma run_parts_app {X} ex (ps qs : list (part X)) v w : run_parts ex (ps ++ qs) v w = abind (run_parts ex ps v) (run_parts ex qs) w.
Proof.
  revert v w. induction ps as [|p ps IH]; intros v w; cbn [app run_parts]; [reflexivity|]. unfold abind at 1 2 3. destruct (ex p v w) as [w1 [v1|e]]; [|reflexivity]. apply IH.
Qed.

Lemma chain_run {X} (ps : list (part X)) v w v' w' : chain ps v w v' w' <-> run_parts exec_part ps v w = (w', Ok v').
Proof.
  split.
  - induction 1 as [|p ps v w v1 w1 v2 w2 E Hc IH]; [reflexivity|]. cbn [run_parts]. unfold abind. rewrite E. exact IH.
  - revert v w. induction ps as [|p ps IH]; intros v w E; cbn [run_parts] in E.
    + injection E as <- <-. constructor.
    + unfold abind in E. destruct (exec_part p v w) as [w1 [v1|e]] eqn:E1; [|discriminate]. econstructor; eauto.
Qed.

Lemma run_err {X} (ps : list (part X)) v w w' e : run_parts exec_part ps v w = (w', Err e) <->
  exists qs p rs v1 w1, ps = qs ++ p :: rs /\ chain qs v w v1 w1 /\ exec_part p v1 w1 = (w', Err e).
Proof.
  split.
  - revert v w. induction ps as [|p ps IH]; intros v w E; cbn [run_parts] in E; [discriminate|]. unfold abind in E. destruct (exec_part p v w) as [w1 [v1|e1]] eqn:E1.
    + destruct (IH _ _ E) as (qs & p' & rs & v2 & w2 & -> & Hc & He). exists (p :: qs), p', rs, v2, w2. split; [reflexivity|]. split; [econstructor; eauto|exact He].
    + injection E as <- <-. exists [], p, ps, v, w. split; [reflexivity|]. split; [constructor|exact E1].
  - intros (qs & p & rs & v1 & w1 & -> & Hc & He). rewrite run_parts_app. unfold abind at 1. apply chain_run in Hc. rewrite Hc. cbn [run_parts]. unfold abind. now rewrite He.
Qed.

Lemma sequential_proof {X} (ps : list (part X)) v w w' r : exec_pipeline ps v w = (w', r) <->
  let w0 := mkWorld (w_heap w) [] (w_rest w) in
  (exists v', r = Ok v' /\ chain ps v w0 v' w') \/
  (exists e qs p rs v1 w1, r = Err e /\ ps = qs ++ p :: rs /\ chain qs v w0 v1 w1 /\ exec_part p v1 w1 = (w', Err e)).
Proof.
  cbv zeta. unfold exec_pipeline, run_pipeline. unfold abind at 1, reset_colors. destruct r as [v'|e].
  - rewrite <- chain_run. split; [eauto|]. intros [(v2 & [= <-] & Hc)|(e & qs & p & rs & v1 & w1 & He & _)]; [exact Hc|discriminate].
  - rewrite run_err. split; [intros (qs & p & rs & v1 & w1 & Hr); right; exists e, qs, p, rs, v1, w1; tauto|].
    intros [(v2 & He & _)|(e2 & qs & p & rs & v1 & w1 & [= <-] & Hr)]; [discriminate|]. eauto 6.
Qed.

Lemma split_proof {X} (ps qs : list (part X)) v w :
  exec_pipeline (ps ++ qs) v w = abind (exec_pipeline ps v) (run_parts exec_part qs) w.
Proof.
  unfold exec_pipeline, run_pipeline. unfold abind at 1, reset_colors. rewrite run_parts_app. unfold abind at 1 2 3. reflexivity.
Qed.

Definition arg_part {X} (a : pipe_arg X) : list (part X) := match a with ArgPart p => [p] | _ => [] end.
Lemma create_acc {X} (args : list (pipe_arg X)) : forall acc,
  create_pipelines_list args acc = if existsb (fun a => match a with ArgOther => true | _ => false end) args then Err TypeError else Ok (acc ++ flat_map arg_part args).
Proof.
  induction args as [|a args IH]; intro acc; cbn; [now rewrite app_nil_r|]. destruct a; cbn; [apply IH| |reflexivity]. rewrite IH. rewrite <- app_assoc. reflexivity.
Qed.
Lemma construction_proof {X} (args : list (pipe_arg X)) :
  (In ArgOther args -> new_pipeline args = Err TypeError) /\
  (~ In ArgOther args -> new_pipeline args = Ok (flat_map (fun a => match a with ArgPart p => [p] | _ => [] end) args)).
Proof.
  unfold new_pipeline. rewrite create_acc. split; intro Hin.
  - replace (existsb _ args) with true; [reflexivity|]. symmetry. apply existsb_exists. exists ArgOther. auto.
  - destruct (existsb _ args) eqn:E; [|reflexivity]. apply existsb_exists in E. destruct E as ([| |] & Hi & Hb); try discriminate. contradiction.
Qed.
