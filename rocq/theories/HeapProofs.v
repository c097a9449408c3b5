From Verif Require Import Py PyFacts LogModel HashModel EqModel EqProofs HeapModel HeapSpec.

Definition above (h : heap) : Prop := forall l, next h <= l -> cells h l = None.

(** What a computation that only adds objects does.  [ins]: the new locations it was given, [rf]: the
    locations its result refers to; nothing older than [n0] is referred to by what it adds. *)
Definition good (n0 : nat) {A} (ins : list loc) (rf : A -> list loc) (m : H A) : Prop :=
  forall h, above h -> let '(h', r) := m h in
    next h <= next h' /\ (forall x, x < next h -> cells h' x = cells h x) /\ above h' /\
    (n0 <= next h -> (forall y, In y ins -> n0 <= y < next h) ->
      (forall x o y, next h <= x -> cells h' x = Some o -> In y (refs o) -> n0 <= y < next h') /\
      (forall a, r = Ok a -> forall y, In y (rf a) -> n0 <= y < next h')).

Lemma good_ret n0 {A} ins (rf : A -> list loc) a : incl (rf a) ins -> good n0 ins rf (ret a).
Proof.
  intros Hi h Ha. unfold ret. repeat split; auto; try (intros; lia).
  - rewrite Ha in H2 by lia. discriminate.
  - rewrite Ha in H2 by lia. discriminate.
  - injection H1 as <-. apply Hi, H0 in H2. lia.
  - injection H1 as <-. apply Hi, H0 in H2. lia.
Qed.

Lemma good_fail n0 {A} ins (rf : A -> list loc) e : good n0 ins rf (fail e).
Proof.
  intros h Ha. unfold fail. repeat split; auto; intros; try discriminate; rewrite Ha in H2 by lia; discriminate.
Qed.

Lemma good_bind n0 {A B} ins (rfa : A -> list loc) (rfb : B -> list loc) (m : H A) (f : A -> H B) :
  good n0 ins rfa m -> (forall a, good n0 (rfa a ++ ins) rfb (f a)) -> good n0 ins rfb (hbind m f).
Proof.
  intros Hm Hf h Ha. unfold hbind. specialize (Hm h Ha). destruct (m h) as [h1 r]. destruct Hm as (M1 & M2 & M3 & M4).
  destruct r as [a|e].
  - specialize (Hf a h1 M3). destruct (f a h1) as [h2 r2]. destruct Hf as (F1 & F2 & F3 & F4). split; [lia|]. split; [|split; [exact F3|]].
    + intros x Hx. rewrite F2 by lia. apply M2; lia.
    + intros Hn Hin. destruct (M4 Hn Hin) as [M5 M6]. destruct F4 as [F5 F6]; [lia| |].
      { intros y Hy. apply in_app_or in Hy. destruct Hy as [Hy|Hy]; [apply (M6 a eq_refl) in Hy; lia|apply Hin in Hy; lia]. }
      split; [|exact F6]. intros x o y Hx Ho Hy. destruct (le_lt_dec (next h1) x) as [Hx'|Hx']; [eapply F5; eauto|].
      rewrite F2 in Ho by lia. assert (n0 <= y < next h1) by (eapply M5; eauto). lia.
  - split; [lia|]. split; [exact M2|]. split; [exact M3|]. intros Hn Hin. destruct (M4 Hn Hin) as [M5 M6]. split; [exact M5|]. intros; discriminate.
Qed.

Lemma good_weaken n0 {A} ins ins' (rf : A -> list loc) m : incl ins ins' -> good n0 ins rf m -> good n0 ins' rf m.
Proof.
  intros Hi Hm h Ha. specialize (Hm h Ha). destruct (m h) as [h1 r]. destruct Hm as (M1 & M2 & M3 & M4).
  split; [exact M1|]. split; [exact M2|]. split; [exact M3|]. intros Hn Hin. apply M4; auto.
Qed.

Lemma good_peek n0 ins l : good n0 ins (fun _ => []) (peek l).
Proof.
  intros h Ha. unfold peek. repeat split; auto; intros; try (rewrite Ha in H2 by lia; discriminate); contradiction.
Qed.
Lemma good_deref n0 ins v : good n0 ins (fun _ => []) (deref v).
Proof. destruct v; [apply good_fail|apply good_peek]. Qed.
Lemma good_as_list n0 ins v : good n0 ins (fun _ => []) (as_list v).
Proof. unfold as_list. eapply good_bind; [apply good_deref|]. intros []; try apply good_fail. apply good_ret. apply incl_nil_l. Qed.
Lemma good_as_dict n0 ins v : good n0 ins (fun _ => []) (as_dict v).
Proof. unfold as_dict. eapply good_bind; [apply good_deref|]. intros []; try apply good_fail. apply good_ret. apply incl_nil_l. Qed.

(** Reserve a location, compute the contents, fill it in. *)
Lemma good_fill n0 {A B} ins (rfa : A -> list loc) (rfb : B -> list loc) (body : loc -> H A) (mk : A -> obj) (out : A -> loc -> B) :
  (forall l, good n0 (l :: ins) rfa (body l)) ->
  (forall a, incl (refs (mk a)) (rfa a)) -> (forall a l, incl (rfb (out a l)) (l :: rfa a ++ ins)) ->
  good n0 ins rfb (hbind reserve (fun l => hbind (body l) (fun a => hbind (poke l (mk a)) (fun _ => ret (out a l))))).
Proof.
  intros Hb Hmk Hout h Ha. unfold hbind, reserve, poke, ret.
  assert (Ha1 : above (mkHeap (cells h) (S (next h)))) by (intros l Hl; cbn in *; apply Ha; lia).
  specialize (Hb (next h) _ Ha1). destruct (body (next h) _) as [h1 r]. cbn [next cells] in *. destruct Hb as (M1 & M2 & M3 & M4). destruct r as [a|e]; cbn [next cells].
  - split; [lia|]. split; [|split].
    + intros x Hx. unfold upd. destruct (Nat.eq_dec x (next h)); [lia|]. apply M2; lia.
    + intros l Hl. cbn in *. unfold upd. destruct (Nat.eq_dec l (next h)); [lia|]. apply M3; lia.
    + intros Hn Hin. destruct M4 as [M5 M6]; [lia|intros y [<-|Hy]; [lia|apply Hin in Hy; lia]|]. split.
      * intros x o y Hx Ho Hy. unfold upd in Ho. destruct (Nat.eq_dec x (next h)) as [->|Hne].
        -- injection Ho as <-. apply Hmk in Hy. eapply M6; eauto.
        -- eapply M5; [|exact Ho|exact Hy]. lia.
      * intros b [= <-] y Hy. apply Hout in Hy. destruct Hy as [<-|Hy]; [lia|]. apply in_app_or in Hy. destruct Hy as [Hy|Hy]; [eapply M6; eauto|apply Hin in Hy; lia].
  - split; [lia|]. split; [intros x Hx; apply M2; lia|]. split; [exact M3|]. intros Hn Hin. destruct M4 as [M5 M6]; [lia|intros y [<-|Hy]; [lia|apply Hin in Hy; lia]|].
    split; [|intros; discriminate]. intros x o y Hx Ho Hy. destruct (Nat.eq_dec x (next h)) as [->|Hne]; [|eapply M5; [|exact Ho|exact Hy]; lia].
    rewrite M2 in Ho by lia. rewrite Ha in Ho by lia. discriminate.
Qed.

Lemma good_alloc n0 ins o : incl (refs o) ins -> good n0 ins (fun l => [l]) (alloc o).
Proof.
  intros Hi h Ha. unfold alloc, hbind, reserve, poke, ret. cbn. split; [lia|]. split; [|split].
  - intros x Hx. unfold upd. destruct (Nat.eq_dec x (next h)); [lia|reflexivity].
  - intros l Hl. cbn in *. unfold upd. destruct (Nat.eq_dec l (next h)); [lia|]. apply Ha; lia.
  - intros Hn Hin. split.
    + intros x o' y Hx Ho Hy. unfold upd in Ho. destruct (Nat.eq_dec x (next h)); [injection Ho as <-; apply Hi, Hin in Hy; lia|]. rewrite Ha in Ho by lia. discriminate.
    + intros a [= <-] y [<-|[]]. lia.
Qed.

Lemma good_hmap n0 {A B} ins (rf : B -> list loc) (f : A -> H B) l :
  (forall a ins', incl ins ins' -> good n0 ins' rf (f a)) -> good n0 ins (fun bs => flat_map rf bs) (hmap f l).
Proof.
  intro Hf. revert ins Hf. induction l as [|a l IH]; intros ins Hf; cbn.
  - apply good_ret. apply incl_nil_l.
  - eapply good_bind; [apply Hf, incl_refl|]. intro b. eapply good_bind; [apply IH|].
    + intros a' ins' Hi. apply Hf. intros x Hx. apply Hi, in_or_app. now right.
    + intro bs. apply good_ret. cbn. intros x Hx. apply in_or_app. apply in_app_or in Hx. destruct Hx as [Hx|Hx]; [right; apply in_or_app; now left|now left].
Qed.

Ltac inl := let z := fresh "z" in let Hz := fresh "Hz" in intros z Hz;
  repeat first [rewrite in_app_iff in Hz | progress cbn in Hz]; repeat first [rewrite in_app_iff | progress cbn]; tauto.

Definition mref (m : memo) : list loc := map snd m.
Definition mvref (my : memo * hv) : list loc := mref (fst my) ++ vref (snd my).

Section GoodDeep.
  Variable n0 : nat.
  Variable dc : memo -> hv -> H (memo * hv).
  Hypothesis Hdc : forall m v, good n0 (mref m) mvref (dc m v).

  Lemma good_deep_list xs : forall m, good n0 (mref m) (fun mys => mref (fst mys) ++ flat_map vref (snd mys)) (deep_list dc m xs).
  Proof.
    induction xs as [|x xs IH]; intro m; cbn.
    - apply good_ret. cbn. now rewrite app_nil_r.
    - eapply good_bind; [apply Hdc|]. intros [m1 y]. cbn. eapply good_bind; [eapply good_weaken; [|apply IH]|].
      + intros z Hz. apply in_or_app. left. unfold mvref. cbn. apply in_or_app. now left.
      + intros [m2 ys]. apply good_ret. unfold mvref. cbn. intros z Hz. rewrite !in_app_iff in *. tauto.
  Qed.

  Lemma good_deep_dict d : forall m, good n0 (mref m) (fun mys => mref (fst mys) ++ flat_map (fun kv => vref (snd kv)) (snd mys)) (deep_dict dc m d).
  Proof.
    induction d as [|[k x] d IH]; intro m; cbn.
    - apply good_ret. cbn. now rewrite app_nil_r.
    - eapply good_bind; [apply Hdc|]. intros [m1 y]. cbn. eapply good_bind; [eapply good_weaken; [|apply IH]|].
      + intros z Hz. apply in_or_app. left. unfold mvref. cbn. apply in_or_app. now left.
      + intros [m2 ys]. apply good_ret. unfold mvref. cbn. intros z Hz. rewrite !in_app_iff in *. tauto.
  Qed.

  Lemma good_fresh ins v : good n0 ins vref (fresh dc v).
  Proof.
    unfold fresh. eapply good_bind; [eapply good_weaken; [apply incl_nil_l|apply Hdc]|]. intros [m y]. apply good_ret. unfold mvref. cbn. intros z Hz. rewrite !in_app_iff. tauto.
  Qed.

  Lemma good_deep_copy_dict ins v : good n0 ins vref (deep_copy_dict dc v).
  Proof.
    unfold deep_copy_dict. eapply good_bind; [apply good_as_dict|]. intro d. eapply good_bind.
    - apply (good_hmap n0 _ (fun kv => vref (snd kv))). intros [k a] ins' _. eapply good_bind; [apply good_fresh|]. intro y. apply good_ret. cbn. apply incl_appl, incl_refl.
    - intro d'. eapply good_bind; [apply good_alloc; cbn; apply incl_appl, incl_refl|]. intro l. apply good_ret. cbn. intros z [<-|[]]. now left.
  Qed.

  Lemma good_event ins p : good n0 ins (fun l => [l]) (deepcopy_event dc p).
  Proof. unfold deepcopy_event. eapply good_bind; [apply good_deep_copy_dict|]. intro q. apply good_alloc. cbn. apply incl_appl, incl_refl. Qed.

  Lemma good_trace ins e : good n0 ins (fun l => [l]) (deepcopy_trace dc e).
  Proof.
    unfold deepcopy_trace. eapply good_bind; [apply good_fresh|]. intro evs. eapply good_bind; [apply good_alloc; cbn; apply incl_nil_l|]. intro a. apply good_alloc. cbn.
    intros z Hz. rewrite in_app_iff in Hz. cbn in *. rewrite in_app_iff. tauto.
  Qed.

  Lemma good_log ins t a e c p : good n0 ins (fun l => [l]) (deepcopy_log dc t a e c p).
  Proof.
    unfold deepcopy_log. eapply good_bind; [apply good_as_list|]. intro ts. eapply good_bind; [apply good_hmap; intros; apply good_fresh|]. intro ts'.
    eapply good_bind; [apply good_alloc; cbn; apply incl_appl, incl_refl|]. intro lt.
    eapply good_bind; [apply good_deep_copy_dict|]. intro a'. eapply good_bind; [apply good_deep_copy_dict|]. intro e'.
    eapply good_bind; [apply good_deep_copy_dict|]. intro c'. eapply good_bind; [apply good_deep_copy_dict|]. intro p'.
    eapply good_bind; [apply good_alloc; cbn; apply incl_nil_l|]. intro g. apply good_alloc.
    intros z Hz. cbn in *. repeat (rewrite in_app_iff in * || cbn in * ). tauto.
  Qed.
End GoodDeep.

Lemma good_deepcopy n0 fuel : forall m v, good n0 (mref m) mvref (deepcopy fuel m v).
Proof.
  induction fuel as [|fuel IH]; intros m v; cbn [deepcopy]; [apply good_fail|].
  destruct v as [a|l].
  - apply good_ret. unfold mvref. cbn. rewrite app_nil_r. apply incl_refl.
  - destruct (memo_get m l) as [l'|] eqn:E.
    + apply good_ret. unfold mvref. cbn. intros z Hz. rewrite in_app_iff in Hz. destruct Hz as [Hz|[<-|[]]]; [exact Hz|].
      apply dget_In in E. unfold mref. change l' with (snd (l, l')). now apply in_map.
    + eapply good_bind; [apply good_peek|]. cbn [app].
      assert (Hafter : forall c, good n0 (mref m) (fun l => [l]) c -> good n0 (mref m) mvref (hbind c (fun l' => ret ((l, l') :: m, HRef l')))).
      { intros c Hc. eapply good_bind; [exact Hc|]. intro l'. apply good_ret. unfold mvref, mref. inl. }
      intros [xs|d|p|evs at_|t a e c p g|d|d]; cbv zeta.
      * apply (good_fill n0 (mref m) (fun mys : memo * list hv => mref (fst mys) ++ flat_map vref (snd mys)) mvref (fun l' => deep_list (deepcopy fuel) ((l, l') :: m) xs) (fun mys => OList (snd mys)) (fun mys l' => (fst mys, HRef l'))).
        -- intro l'. apply (good_deep_list n0 (deepcopy fuel) IH xs ((l, l') :: m)).
        -- intro a. cbn. apply incl_appr, incl_refl.
        -- intros a l'. unfold mvref. cbn. intros z Hz. cbn. rewrite !in_app_iff in *. cbn in *. tauto.
      * apply (good_fill n0 (mref m) (fun mys : memo * dict pystr hv => mref (fst mys) ++ flat_map (fun kv => vref (snd kv)) (snd mys)) mvref (fun l' => deep_dict (deepcopy fuel) ((l, l') :: m) d) (fun mys => ODict (snd mys)) (fun mys l' => (fst mys, HRef l'))).
        -- intro l'. apply (good_deep_dict n0 (deepcopy fuel) IH d ((l, l') :: m)).
        -- intro a. cbn. apply incl_appr, incl_refl.
        -- intros a l'. unfold mvref. cbn. intros z Hz. cbn. rewrite !in_app_iff in *. cbn in *. tauto.
      * apply Hafter, good_event, IH.
      * apply Hafter, good_trace, IH.
      * apply Hafter, good_log, IH.
      * apply (good_fill n0 (mref m) (fun mys : memo * dict pystr hv => mref (fst mys) ++ flat_map (fun kv => vref (snd kv)) (snd mys)) mvref (fun l' => deep_dict (deepcopy fuel) ((l, l') :: m) d) (fun mys => OInst (snd mys)) (fun mys l' => (fst mys, HRef l'))).
        -- intro l'. apply (good_deep_dict n0 (deepcopy fuel) IH d ((l, l') :: m)).
        -- intro a. cbn. apply incl_appr, incl_refl.
        -- intros a l'. unfold mvref. cbn. intros z Hz. cbn. rewrite !in_app_iff in *. cbn in *. tauto.
      * apply good_fail.
Qed.

(** What a client can change. *)
Lemma reach_trans h a b c : reach h a b -> reach h b c -> reach h a c.
Proof. induction 1; [auto|]. intro Hc. eapply reach_step; eauto. Qed.
Lemma reach_one h a o b : cells h a = Some o -> In b (refs o) -> reach h a b.
Proof. intros. eapply reach_step; eauto. constructor. Qed.

Lemma closed_alloc h o : closed h -> (forall x, In x (refs o) -> x < next h) -> closed (fst (alloc o h)).
Proof.
  intros [Ha Hc] Ho. cbn. split; cbn.
  - intros l Hl. unfold upd. destruct (Nat.eq_dec l (next h)); [lia|]. apply Ha. lia.
  - intros l o' m Hl Hm. unfold upd in Hl. destruct (Nat.eq_dec l (next h)); [injection Hl as <-; apply Ho in Hm; lia|]. specialize (Hc _ _ _ Hl Hm). lia.
Qed.
Lemma closed_poke h l o : closed h -> l < next h -> (forall x, In x (refs o) -> x < next h) -> closed (fst (poke l o h)).
Proof.
  intros [Ha Hc] Hl Ho. cbn. split; cbn.
  - intros x Hx. unfold upd. destruct (Nat.eq_dec x l); [lia|]. apply Ha. lia.
  - intros x o' m Hx Hm. unfold upd in Hx. destruct (Nat.eq_dec x l); [injection Hx as <-; auto|]. eauto.
Qed.

Lemma runs_frame K h h' : runs K h h' -> closed h -> (forall k, K k -> k < next h) ->
  next h <= next h' /\ forall x, x < next h -> ~ (exists k, K k /\ reach h k x) -> cells h' x = cells h x.
Proof.
  induction 1 as [K h|K h h' l o z Hl Ho Hz Hr IH|K h h' o Ho Hr IH|K h h' l o Hl Ho Hr IH]; intros Hc HK.
  - auto.
  - destruct IH as [IH1 IH2]; [exact Hc| |].
    { intros k [->|Hk]; [destruct Hc as [_ Hc]; eauto|auto]. }
    split; [exact IH1|]. intros x Hx Hn. apply IH2; [exact Hx|]. intros (k & [->|Hk] & Hreach); apply Hn; [|eauto].
    exists l. split; [exact Hl|]. eapply reach_step; eauto.
  - destruct IH as [IH1 IH2]; [apply closed_alloc; auto| |].
    { intros k Hk. cbn. destruct Hk as [->|Hk]; [lia|apply HK in Hk; lia]. }
    cbn in IH1. split; [lia|]. intros x Hx Hn. rewrite IH2.
    + cbn. unfold upd. destruct (Nat.eq_dec x (next h)); [lia|reflexivity].
    + cbn. lia.
    + intros (k & Hk & Hreach). apply Hn.
      assert (Hgen : forall k x, reach (fst (alloc o h)) k x -> (k = next h \/ exists k0, K k0 /\ reach h k0 k) -> x = next h \/ exists k0, K k0 /\ reach h k0 x).
      { clear -Ho. intros k x Hr. induction Hr as [l|l o' m x Hc Hin Hr IH]; intros Hk; [exact Hk|].
        apply IH. right. cbn in Hc. unfold upd in Hc. destruct (Nat.eq_dec l (next h)) as [->|Hne].
        - injection Hc as <-. exists m. split; [apply Ho, Hin|constructor].
        - destruct Hk as [->|(k0 & Hk0 & Hk1)]; [congruence|]. exists k0. split; [exact Hk0|]. eapply reach_trans; [exact Hk1|]. eapply reach_one; eauto. }
      destruct (Hgen _ _ Hreach) as [->|Hres]; [|lia|exact Hres]. destruct Hk as [->|Hk]; [now left|]. right. exists k. split; [exact Hk|constructor].
  - destruct IH as [IH1 IH2]; [apply closed_poke; auto|auto|].
    cbn in IH1. split; [lia|]. intros x Hx Hn. rewrite IH2.
    + cbn. unfold upd. destruct (Nat.eq_dec x l) as [->|]; [|reflexivity]. exfalso. apply Hn. exists l. split; [exact Hl|constructor].
    + cbn. lia.
    + intros (k & Hk & Hreach). apply Hn.
      assert (Hgen : forall k x, reach (fst (poke l o h)) k x -> (exists k0, K k0 /\ reach h k0 k) -> exists k0, K k0 /\ reach h k0 x).
      { clear -Ho Hl. intros k x Hr. induction Hr as [q|q o' m x Hc Hin Hr IH]; intros Hk; [exact Hk|]. apply IH.
        cbn in Hc. unfold upd in Hc. destruct (Nat.eq_dec q l) as [->|Hne].
        - injection Hc as <-. exists m. split; [apply Ho, Hin|constructor].
        - destruct Hk as (k0 & Hk0 & Hk1). exists k0. split; [exact Hk0|]. eapply reach_trans; [exact Hk1|]. eapply reach_one; eauto. }
      eapply Hgen; [exact Hreach|]. exists k. split; [exact Hk|constructor].
Qed.

(** Deep copies are isolated. *)
Lemma reach_inside h (P : loc -> Prop) : (forall l o y, P l -> cells h l = Some o -> In y (refs o) -> P y) ->
  forall l x, reach h l x -> P l -> P x.
Proof. intros HP l x. induction 1; eauto. Qed.

Lemma deepcopy_separate fuel h h' v m v' : closed h ->
  deepcopy fuel [] v h = (h', Ok (m, v')) ->
  closed h' /\ next h <= next h' /\ (forall x, x < next h -> cells h' x = cells h x) /\
  (forall l, In l (vref v') -> forall x, reach h' l x -> next h <= x < next h').
Proof.
  intros [Ha Hc] E. pose proof (good_deepcopy (next h) fuel [] v h Ha) as Hg. rewrite E in Hg. destruct Hg as (G1 & G2 & G3 & G4).
  destruct G4 as [G5 G6]; [lia|intros y []|]. split; [|split; [exact G1|split; [exact G2|]]].
  - split; [exact G3|]. intros l o y Hl Hy. destruct (le_lt_dec (next h) l) as [Hlt|Hlt].
    + assert (next h <= y < next h') by (eapply G5; eauto). lia.
    + rewrite G2 in Hl by exact Hlt. specialize (Hc _ _ _ Hl Hy). lia.
  - intros l Hl x Hr. assert (Hb : next h <= l < next h') by (eapply G6; [reflexivity|]; unfold mvref; cbn; apply in_or_app; now right).
    revert Hr Hb. apply (reach_inside h' (fun l => next h <= l < next h')). intros q o y Hq Ho Hy. apply (G5 q o y); [lia|assumption|assumption].
Qed.

Lemma deepcopy_isolated_proof fuel h h1 h2 l m l' : closed h -> l < next h ->
  deepcopy fuel [] (HRef l) h = (h1, Ok (m, HRef l')) ->
  (client l' h1 h2 -> forall x, x < next h -> cells h2 x = cells h x) /\
  (client l h1 h2 -> forall x, reach h1 l' x -> cells h2 x = cells h1 x).
Proof.
  intros Hc Hl E. destruct (deepcopy_separate _ _ _ _ _ _ Hc E) as (C1 & C2 & C3 & C4). specialize (C4 l' (or_introl eq_refl)).
  assert (Hl' : next h <= l' < next h1) by (apply C4; constructor).
  split; intros Hr x Hx; unfold client in Hr.
  - destruct (runs_frame _ _ _ Hr C1) as [_ Hf]; [intros k ->; lia|]. rewrite Hf; [apply C3; lia|lia|]. intros (k & -> & Hk). apply C4 in Hk. lia.
  - destruct (runs_frame _ _ _ Hr C1) as [_ Hf]; [intros k ->; lia|]. apply Hf; [apply C4; exact Hx|]. intros (k & -> & Hk). apply C4 in Hx.
    assert (x < next h); [|lia]. revert Hk Hl. apply (reach_inside h1 (fun l => l < next h)). intros q o y Hq Ho Hy. rewrite C3 in Ho by exact Hq. destruct Hc as [_ Hc]. eauto.
Qed.

(** What the copy looks like. *)
Scheme looks_ind3 := Minimality for looks Sort Prop
  with looks_all_ind3 := Minimality for looks_all Sort Prop
  with looks_dict_ind3 := Minimality for looks_dict Sort Prop.
Combined Scheme looks_mutind from looks_ind3, looks_all_ind3, looks_dict_ind3.

Definition ext (h h' : heap) : Prop := forall x o, cells h x = Some o -> cells h' x = Some o.
Lemma ext_trans a b c : ext a b -> ext b c -> ext a c.
Proof. unfold ext; auto. Qed.

Lemma looks_mono h h' : ext h h' ->
  (forall v t, looks h v t -> looks h' v t) /\ (forall vs ts, looks_all h vs ts -> looks_all h' vs ts) /\ (forall d td, looks_dict h d td -> looks_dict h' d td).
Proof.
  intro He. apply looks_mutind; intros; try (econstructor; eauto; fail).
Qed.

Lemma looks_fun h :
  (forall v t, looks h v t -> forall t', looks h v t' -> t = t') /\ (forall vs ts, looks_all h vs ts -> forall ts', looks_all h vs ts' -> ts = ts') /\ (forall d td, looks_dict h d td -> forall td', looks_dict h d td' -> td = td').
Proof.
  apply looks_mutind; intros; match goal with H : looks _ _ ?t |- _ = ?t => inversion H; subst | H : looks_all _ _ ?t |- _ = ?t => inversion H; subst | H : looks_dict _ _ ?t |- _ = ?t => inversion H; subst end;
    repeat match goal with
    | H : cells ?h ?l = _, H' : cells ?h ?l = _ |- _ => rewrite H in H'; injection H' as ?; subst
    end; try congruence; f_equal; try discriminate; auto.
  f_equal; auto.
Qed.

Fixpoint tsize (t : tree) : nat :=
  let dsize d := list_sum (map (fun kt => tsize (snd kt)) d) in
  match t with
  | TAtom _ => 1
  | TList ts => S (list_sum (map tsize ts))
  | TDict d => S (dsize d)
  | TEvent d => S (dsize d)
  | TTrace es a => S (S (list_sum (map tsize es) + dsize a))
  | TLog ts a e c p g => S (list_sum (map tsize ts) + dsize a + dsize e + dsize c + dsize p + dsize g)
  | TInst d => S (dsize d)
  end.
Lemma tsize_pos t : 1 <= tsize t.
Proof. destruct t; cbn; lia. Qed.

Definition strip_d := map (fun kt : pystr * tree => (fst kt, strip (snd kt))).
Definition full (h0 h : heap) (l l' : loc) : Prop := forall t, looks h0 (HRef l) t -> looks h (HRef l') (strip t).
(** The memo serves everything smaller than [n]. *)
Definition serves (h0 h : heap) (n : nat) (m : memo) : Prop :=
  forall l l', memo_get m l = Some l' -> forall t, looks h0 (HRef l) t -> tsize t <= n -> looks h (HRef l') (strip t).
(** The memo was only extended with finished copies. *)
Definition grown (h0 h : heap) (m m' : memo) : Prop :=
  forall l l', memo_get m' l = Some l' -> memo_get m l = Some l' \/ full h0 h l l'.

Lemma full_mono h0 h h' l l' : ext h h' -> full h0 h l l' -> full h0 h' l l'.
Proof. intros He Hf t Ht. eapply looks_mono; [exact He|]. apply Hf, Ht. Qed.
Lemma serves_mono h0 h h' n m : ext h h' -> serves h0 h n m -> serves h0 h' n m.
Proof. intros He Hf l l' Hm t Ht Hn. eapply looks_mono; [exact He|]. eapply Hf; eauto. Qed.
Lemma serves_grown h0 h h' n m m' : ext h h' -> serves h0 h n m -> grown h0 h' m m' -> serves h0 h' n m'.
Proof. intros He Hs Hg l l' Hm t Ht Hn. destruct (Hg _ _ Hm) as [Hm'|Hf]; [eapply looks_mono; [exact He|]; eapply Hs; eauto|apply Hf, Ht]. Qed.
Lemma grown_trans h0 h1 h2 m m1 m2 : ext h1 h2 -> grown h0 h1 m m1 -> grown h0 h2 m1 m2 -> grown h0 h2 m m2.
Proof. intros He H1 H2 l l' Hm. destruct (H2 _ _ Hm) as [Hm1|]; [|now right]. destruct (H1 _ _ Hm1) as [|Hf]; [now left|]. right. eapply full_mono; eauto. Qed.
Lemma serves_le h0 h n n' m : n' <= n -> serves h0 h n m -> serves h0 h n' m.
Proof. intros Hn Hs l l' Hm t Ht Hle. eapply Hs; eauto. lia. Qed.

Lemma good_ext n0 {A} ins (rf : A -> list loc) m h h' r : good n0 ins rf m -> above h -> m h = (h', r) -> ext h h' /\ above h' /\ next h <= next h'.
Proof.
  intros Hg Ha E. specialize (Hg h Ha). rewrite E in Hg. destruct Hg as (G1 & G2 & G3 & _). split; [|auto]. intros x o Hx. destruct (le_lt_dec (next h) x); [rewrite Ha in Hx by assumption; discriminate|]. rewrite G2; auto.
Qed.

Lemma hbind_ok {A B} (m : H A) (f : A -> H B) h h' a : m h = (h', Ok a) -> hbind m f h = f a h'.
Proof. intro E. unfold hbind. now rewrite E. Qed.

Lemma list_sum_cons x l : list_sum (x :: l) = x + list_sum l.
Proof. reflexivity. Qed.

Section Content.
  Variable h0 : heap.
  Variable dc : memo -> hv -> H (memo * hv).
  Variable N : nat.
  Hypothesis dc_good : forall m v, good 0 (mref m) mvref (dc m v).
  Hypothesis dc_ok : forall m v t h, tsize t <= N -> above h -> ext h0 h -> looks h0 v t -> serves h0 h (tsize t) m ->
    exists h' m' v', dc m v h = (h', Ok (m', v')) /\ looks h' v' (strip t) /\ grown h0 h' m m'.

  Lemma dc_step m v t h : tsize t <= N -> above h -> ext h0 h -> looks h0 v t -> serves h0 h (tsize t) m ->
    exists h' m' v', dc m v h = (h', Ok (m', v')) /\ looks h' v' (strip t) /\ grown h0 h' m m' /\ ext h h' /\ above h' /\ ext h0 h' /\ next h <= next h'.
  Proof.
    intros Hn Ha He Hl Hs. destruct (dc_ok m v t h Hn Ha He Hl Hs) as (h' & m' & v' & E & H1 & H2). destruct (good_ext _ _ _ _ _ _ _ (dc_good m v) Ha E) as (X1 & X2 & X3).
    exists h', m', v'. split; [exact E|]. split; [exact H1|]. split; [exact H2|]. split; [exact X1|]. split; [exact X2|]. split; [eapply ext_trans; eauto|exact X3].
  Qed.

  Lemma deep_list_ok xs ts : looks_all h0 xs ts -> forall m n h, list_sum (map tsize ts) <= n -> n <= N -> above h -> ext h0 h -> serves h0 h n m ->
    exists h' m' ys, deep_list dc m xs h = (h', Ok (m', ys)) /\ looks_all h' ys (map strip ts) /\ grown h0 h' m m' /\ ext h h' /\ above h' /\ next h <= next h'.
  Proof.
    induction 1 as [|v t vs ts Hv Hvs IH]; intros m n h Hn HN Ha He Hs.
    - exists h, m, []. split; [reflexivity|]. split; [constructor|]. split; [intros l l' Hm; now left|]. split; [intros x o; auto|]. auto.
    - cbn [map snd] in Hn. rewrite list_sum_cons in Hn. destruct (dc_step m v t h) as (h1 & m1 & y & E1 & L1 & G1 & X1 & A1 & X1' & N1); auto; [lia|eapply serves_le; [|exact Hs]; lia|].
      destruct (IH m1 n h1) as (h2 & m2 & ys & E2 & L2 & G2 & X2 & A2 & N2); auto; [lia|eapply serves_grown; [exact X1|exact Hs|exact G1]|].
      exists h2, m2, (y :: ys). split; [|split; [|split; [|split; [|split]]]].
      + cbn. erewrite hbind_ok by exact E1. cbn. erewrite hbind_ok by exact E2. reflexivity.
      + cbn. constructor; [|exact L2]. eapply looks_mono; [exact X2|exact L1].
      + eapply grown_trans; eauto.
      + eapply ext_trans; eauto.
      + exact A2.
      + lia.
  Qed.

  Lemma deep_dict_ok d td : looks_dict h0 d td -> forall m n h, list_sum (map (fun kt => tsize (snd kt)) td) <= n -> n <= N -> above h -> ext h0 h -> serves h0 h n m ->
    exists h' m' d', deep_dict dc m d h = (h', Ok (m', d')) /\ looks_dict h' d' (strip_d td) /\ grown h0 h' m m' /\ ext h h' /\ above h' /\ next h <= next h'.
  Proof.
    induction 1 as [|k v t d td Hv Hvs IH]; intros m n h Hn HN Ha He Hs.
    - exists h, m, []. split; [reflexivity|]. split; [constructor|]. split; [intros l l' Hm; now left|]. split; [intros x o; auto|]. auto.
    - cbn [map snd] in Hn. rewrite list_sum_cons in Hn. destruct (dc_step m v t h) as (h1 & m1 & y & E1 & L1 & G1 & X1 & A1 & X1' & N1); auto; [lia|eapply serves_le; [|exact Hs]; lia|].
      destruct (IH m1 n h1) as (h2 & m2 & ys & E2 & L2 & G2 & X2 & A2 & N2); auto; [lia|eapply serves_grown; [exact X1|exact Hs|exact G1]|].
      exists h2, m2, ((k, y) :: ys). split; [|split; [|split; [|split; [|split]]]].
      + cbn. erewrite hbind_ok by exact E1. cbn. erewrite hbind_ok by exact E2. reflexivity.
      + cbn. constructor; [|exact L2]. eapply looks_mono; [exact X2|exact L1].
      + eapply grown_trans; eauto.
      + eapply ext_trans; eauto.
      + exact A2.
      + lia.
  Qed.

  Lemma serves_nil h n : serves h0 h n [].
  Proof. intros l l' Hm. discriminate. Qed.

  Lemma fresh_ok v t h : tsize t <= N -> above h -> ext h0 h -> looks h0 v t ->
    exists h' v', fresh dc v h = (h', Ok v') /\ looks h' v' (strip t) /\ ext h h' /\ above h' /\ ext h0 h'.
  Proof.
    intros Hn Ha He Hl. destruct (dc_step [] v t h) as (h1 & m1 & y & E1 & L1 & G1 & X1 & A1 & X1' & N1); auto using serves_nil.
    exists h1, y. split; [|auto]. unfold fresh. erewrite hbind_ok by exact E1. reflexivity.
  Qed.

  Lemma fresh_map_ok xs ts : looks_all h0 xs ts -> forall h, list_sum (map tsize ts) <= N -> above h -> ext h0 h ->
    exists h' ys, hmap (fresh dc) xs h = (h', Ok ys) /\ looks_all h' ys (map strip ts) /\ ext h h' /\ above h' /\ ext h0 h'.
  Proof.
    induction 1 as [|v t vs ts Hv Hvs IH]; intros h HN Ha He.
    - exists h, []. split; [reflexivity|]. split; [constructor|]. split; [intros x o; auto|]. auto.
    - cbn [map snd] in HN. rewrite list_sum_cons in HN. destruct (fresh_ok v t h) as (h1 & y & E1 & L1 & X1 & A1 & X1'); auto; [lia|].
      destruct (IH h1) as (h2 & ys & E2 & L2 & X2 & A2 & X2'); auto; [lia|].
      exists h2, (y :: ys). split; [|split; [|split; [|split]]]; auto.
      + cbn. erewrite hbind_ok by exact E1. cbn. erewrite hbind_ok by exact E2. reflexivity.
      + cbn. constructor; [|exact L2]. eapply looks_mono; [exact X2|exact L1].
      + eapply ext_trans; eauto.
  Qed.

  Lemma alloc_ok o h : above h -> ext h0 h ->
    exists h', alloc o h = (h', Ok (next h)) /\ cells h' (next h) = Some o /\ ext h h' /\ above h' /\ ext h0 h'.
  Proof.
    intros Ha He. eexists. split; [reflexivity|]. cbn.
    assert (X : ext h (mkHeap (upd (cells h) (next h) (Some o)) (S (next h)))).
    { intros x o' Hx. cbn. unfold upd. destruct (Nat.eq_dec x (next h)) as [->|]; [|exact Hx]. rewrite Ha in Hx by lia. discriminate. }
    split; [unfold upd; destruct (Nat.eq_dec (next h) (next h)); congruence|]. split; [exact X|]. split; [|eapply ext_trans; eauto].
    intros x Hx. cbn in *. unfold upd. destruct (Nat.eq_dec x (next h)); [lia|]. apply Ha. lia.
  Qed.

  Lemma deep_copy_dict_ok p d td h : cells h0 p = Some (ODict d) -> looks_dict h0 d td -> list_sum (map (fun kt => tsize (snd kt)) td) <= N -> above h -> ext h0 h ->
    exists h' p' d', deep_copy_dict dc (HRef p) h = (h', Ok (HRef p')) /\ cells h' p' = Some (ODict d') /\ looks_dict h' d' (strip_d td) /\ ext h h' /\ above h' /\ ext h0 h'.
  Proof.
    intros Hp Hd Hn Ha He.
    assert (Hmap : exists h1 d', hmap (fun kv : pystr * hv => hbind (fresh dc (snd kv)) (fun y => ret (fst kv, y))) d h = (h1, Ok d') /\ looks_dict h1 d' (strip_d td) /\ ext h h1 /\ above h1 /\ ext h0 h1).
    { clear Hp. revert h Hn Ha He. induction Hd as [|k v t d td Hv Hvs IH]; intros h HN Ha He.
      - exists h, []. split; [reflexivity|]. split; [constructor|]. split; [intros x o; auto|]. auto.
      - cbn [map snd] in HN. rewrite list_sum_cons in HN. destruct (fresh_ok v t h) as (h1 & y & E1 & L1 & X1 & A1 & X1'); auto; [lia|].
        destruct (IH h1) as (h2 & ys & E2 & L2 & X2 & A2 & X2'); auto; [lia|].
        exists h2, ((k, y) :: ys). split; [|split; [|split; [|split]]]; auto.
        + cbn [hmap fst snd]. unfold hbind at 2. erewrite hbind_ok by (rewrite E1; reflexivity). cbn [fst snd]. erewrite hbind_ok by exact E2. reflexivity.
        + cbn. constructor; [|exact L2]. eapply looks_mono; [exact X2|exact L1].
        + eapply ext_trans; eauto. }
    destruct Hmap as (h1 & d' & E1 & L1 & X1 & A1 & X1'). destruct (alloc_ok (ODict d') h1 A1 X1') as (h2 & E2 & C2 & X2 & A2 & X2').
    exists h2, (next h1), d'. split; [|split; [exact C2|split; [|split; [|split]]]]; auto.
    - unfold deep_copy_dict, as_dict. unfold hbind at 1 2. cbn [deref peek]. rewrite (He _ _ Hp). cbn. erewrite hbind_ok by exact E1. erewrite hbind_ok by exact E2. reflexivity.
    - eapply looks_mono; [exact X2|exact L1].
    - eapply ext_trans; eauto.
  Qed.
End Content.

Lemma deepcopy_ok h0 fuel : forall m v t h, tsize t <= fuel -> above h -> ext h0 h -> looks h0 v t -> serves h0 h (tsize t) m ->
  exists h' m' v', deepcopy fuel m v h = (h', Ok (m', v')) /\ looks h' v' (strip t) /\ grown h0 h' m m'.
Proof.
  induction fuel as [|fuel IH]; intros m v t h Hn Ha He Hl Hs; [pose proof (tsize_pos t); lia|].
  pose proof (good_deepcopy 0 fuel) as Hg.
  destruct v as [a|l].
  { inversion Hl; subst. exists h, m, (HAtom a). split; [reflexivity|]. split; [constructor|]. intros l l' Hm; now left. }
  cbn [deepcopy]. destruct (memo_get m l) as [l'|] eqn:E.
  { exists h, m, (HRef l'). split; [reflexivity|]. split; [eapply Hs; eauto|]. intros x x' Hm; now left. }
  assert (Hafter : forall h1 l' (c : H loc), c h = (h1, Ok l') -> looks h1 (HRef l') (strip t) ->
    exists h' m' v', hbind c (fun l' => ret ((l, l') :: m, HRef l')) h = (h', Ok (m', v')) /\ looks h' v' (strip t) /\ grown h0 h' m m').
  { intros h1 l' c Ec Lc. exists h1, ((l, l') :: m), (HRef l'). split; [erewrite hbind_ok by exact Ec; reflexivity|]. split; [exact Lc|].
    intros x x' Hm. unfold memo_get in Hm. cbn in Hm. destruct (Nat.eq_dec x l) as [->|Hne]; [|now left]. injection Hm as <-. right. intros t' Ht'. now rewrite <- (proj1 (looks_fun h0) _ _ Hl _ Ht'). }
  (* a container: its location is reserved, the contents are copied, then it is filled in *)
  assert (Hfill : forall A (body : loc -> H (memo * A)) (mk : A -> obj) (P : heap -> A -> Prop),
    (forall ha hb a, ext ha hb -> P ha a -> P hb a) ->
    (forall h' l' a, cells h' l' = Some (mk a) -> P h' a -> looks h' (HRef l') (strip t)) ->
    (forall h1, above h1 -> ext h0 h1 -> serves h0 h1 (Nat.pred (tsize t)) ((l, next h) :: m) ->
       exists h2 m' a, body (next h) h1 = (h2, Ok (m', a)) /\ P h2 a /\ grown h0 h2 ((l, next h) :: m) m' /\ ext h1 h2 /\ above h2 /\ next h1 <= next h2) ->
    (forall h1 h2 r, above h1 -> body (next h) h1 = (h2, r) -> forall x, x < next h1 -> cells h2 x = cells h1 x) ->
    exists h' m' v', hbind reserve (fun l' => hbind (body l') (fun mys => hbind (poke l' (mk (snd mys))) (fun _ => ret (fst mys, HRef l')))) h = (h', Ok (m', v')) /\ looks h' v' (strip t) /\ grown h0 h' m m').
  { intros A body mk P HPm HPl Hbody Hframe.
    set (h1 := mkHeap (cells h) (S (next h))).
    assert (A1 : above h1) by (intros x Hx; cbn in *; apply Ha; lia).
    assert (X1 : ext h0 h1) by (intros x o Hx; apply He, Hx).
    assert (S1 : serves h0 h1 (Nat.pred (tsize t)) ((l, next h) :: m)).
    { intros x x' Hm t' Ht' Hsz. unfold memo_get in Hm. cbn in Hm. destruct (Nat.eq_dec x l) as [->|Hne].
      - rewrite <- (proj1 (looks_fun h0) _ _ Hl _ Ht') in Hsz. pose proof (tsize_pos t). lia.
      - eapply (looks_mono h h1); [intros y o Hy; exact Hy|]. eapply Hs; eauto. lia. }
    destruct (Hbody h1 A1 X1 S1) as (h2 & m' & a & E2 & P2 & G2 & X2 & A2 & N2).
    assert (Hnone : cells h2 (next h) = None) by (rewrite (Hframe _ _ _ A1 E2) by (cbn; lia); apply Ha; lia).
    set (h3 := mkHeap (upd (cells h2) (next h) (Some (mk a))) (next h2)).
    assert (X3 : ext h2 h3) by (intros x o Hx; cbn; unfold upd; destruct (Nat.eq_dec x (next h)) as [->|]; congruence).
    assert (C3 : cells h3 (next h) = Some (mk a)) by (cbn; unfold upd; destruct (Nat.eq_dec (next h) (next h)); congruence).
    assert (L3 : looks h3 (HRef (next h)) (strip t)) by (eapply HPl; eauto).
    exists h3, m', (HRef (next h)). split; [|split; [exact L3|]].
    - unfold hbind at 1. cbn [reserve]. fold h1. erewrite hbind_ok by exact E2. reflexivity.
    - intros x x' Hm. destruct (G2 _ _ Hm) as [Hm'|Hf]; [|right; eapply full_mono; eauto].
      unfold memo_get in Hm'. cbn in Hm'. destruct (Nat.eq_dec x l) as [->|Hne]; [|now left]. injection Hm' as <-. right. intros t' Ht'. now rewrite <- (proj1 (looks_fun h0) _ _ Hl _ Ht'). }
  inversion Hl; subst; match goal with Hc : cells h0 l = Some ?o |- _ => unfold hbind at 1; cbn [peek]; rewrite (He _ _ Hc) end; cbv zeta.
  - apply (Hfill _ (fun l' => deep_list (deepcopy fuel) ((l, l') :: m) xs) OList (fun h' ys => looks_all h' ys (map strip ts))).
    + intros ha hb ys Hx Hy. eapply looks_mono; eauto.
    + intros h' l' ys Hc Hy. cbn. econstructor; eauto.
    + intros h1 A1 X1 S1. cbn in Hn, S1. eapply (deep_list_ok h0 (deepcopy fuel) fuel); eauto. lia.
    + intros h1 h2 r A1 E2 x Hx. pose proof (good_deep_list 0 _ Hg xs ((l, next h) :: m) h1 A1) as G. rewrite E2 in G. now apply G.
  - apply (Hfill _ (fun l' => deep_dict (deepcopy fuel) ((l, l') :: m) d) ODict (fun h' ys => looks_dict h' ys (strip_d td))).
    + intros ha hb ys Hx Hy. eapply looks_mono; eauto.
    + intros h' l' ys Hc Hy. cbn. econstructor; eauto.
    + intros h1 A1 X1 S1. cbn in Hn, S1. eapply (deep_dict_ok h0 (deepcopy fuel) fuel); eauto. lia.
    + intros h1 h2 r A1 E2 x Hx. pose proof (good_deep_dict 0 _ Hg d ((l, next h) :: m) h1 A1) as G. rewrite E2 in G. now apply G.
  - apply (Hfill _ (fun l' => deep_dict (deepcopy fuel) ((l, l') :: m) d) OInst (fun h' ys => looks_dict h' ys (strip_d td))).
    + intros ha hb ys Hx Hy. eapply looks_mono; eauto.
    + intros h' l' ys Hc Hy. cbn. econstructor; eauto.
    + intros h1 A1 X1 S1. cbn in Hn, S1. eapply (deep_dict_ok h0 (deepcopy fuel) fuel); eauto. lia.
    + intros h1 h2 r A1 E2 x Hx. pose proof (good_deep_dict 0 _ Hg d ((l, next h) :: m) h1 A1) as G. rewrite E2 in G. now apply G.
  - cbn in Hn. destruct (deep_copy_dict_ok h0 (deepcopy fuel) fuel Hg IH p d td h) as (h1 & p' & d' & E1 & C1 & L1 & X1 & A1 & X1'); auto; [lia|].
    destruct (alloc_ok h0 (OEvent (HRef p')) h1 A1 X1') as (h2 & E2 & C2 & X2 & A2 & X2').
    eapply Hafter; [unfold deepcopy_event; erewrite hbind_ok by exact E1; exact E2|]. cbn. econstructor; [exact C2|apply X2, C1|]. eapply looks_mono; [exact X2|exact L1].
  - cbn in Hn. destruct (fresh_ok h0 (deepcopy fuel) fuel Hg IH (HRef e) (TList ts) h) as (h1 & e' & E1 & L1 & X1 & A1 & X1'); auto; [cbn; lia|econstructor; eauto|].
    destruct (alloc_ok h0 (ODict []) h1 A1 X1') as (h2 & E2 & C2 & X2 & A2 & X2'). cbn in L1. inversion L1; subst.
    match goal with |- context [deepcopy_trace _ _] => idtac end.
    destruct (alloc_ok h0 (OTrace (HRef l0) (HRef (next h1))) h2 A2 X2') as (h3 & E3 & C3 & X3 & A3 & X3').
    eapply Hafter; [unfold deepcopy_trace; erewrite hbind_ok by exact E1; erewrite hbind_ok by exact E2; exact E3|]. cbn.
    econstructor; [exact C3|apply X3, X2; eassumption| |apply X3; exact C2|constructor]. eapply looks_mono; [exact X3|]. eapply looks_mono; [exact X2|]. assumption.
  - cbn in Hn.
    destruct (fresh_map_ok h0 (deepcopy fuel) fuel Hg IH xs ts ltac:(assumption) h) as (h1 & xs' & E1 & L1 & X1 & A1 & X1'); auto; [lia|].
    destruct (alloc_ok h0 (OList xs') h1 A1 X1') as (h2 & E2 & C2 & X2 & A2 & X2').
    destruct (deep_copy_dict_ok h0 (deepcopy fuel) fuel Hg IH a da ta h2) as (h3 & a' & da' & E3 & C3 & L3 & X3 & A3 & X3'); auto; [lia|].
    destruct (deep_copy_dict_ok h0 (deepcopy fuel) fuel Hg IH e de te h3) as (h4 & e' & de' & E4 & C4 & L4 & X4 & A4 & X4'); auto; [lia|].
    destruct (deep_copy_dict_ok h0 (deepcopy fuel) fuel Hg IH c dc tc h4) as (h5 & c' & dc' & E5 & C5 & L5 & X5 & A5 & X5'); auto; [lia|].
    destruct (deep_copy_dict_ok h0 (deepcopy fuel) fuel Hg IH p dp tp h5) as (h6 & p' & dp' & E6 & C6 & L6 & X6 & A6 & X6'); auto; [lia|].
    destruct (alloc_ok h0 (ODict []) h6 A6 X6') as (h7 & E7 & C7 & X7 & A7 & X7').
    destruct (alloc_ok h0 (OLog (HRef (next h1)) (HRef a') (HRef e') (HRef c') (HRef p') (HRef (next h6))) h7 A7 X7') as (h8 & E8 & C8 & X8 & A8 & X8').
    assert (Y6 : ext h6 h8) by (eapply ext_trans; eauto). assert (Y5 : ext h5 h8) by (eapply ext_trans; eauto). assert (Y4 : ext h4 h8) by (eapply ext_trans; eauto).
    assert (Y3 : ext h3 h8) by (eapply ext_trans; eauto). assert (Y2 : ext h2 h8) by (eapply ext_trans; eauto). assert (Y1 : ext h1 h8) by (eapply ext_trans; eauto).
    eapply Hafter.
    + unfold deepcopy_log, as_list. unfold hbind at 1 2. cbn [deref peek]. match goal with Ht : cells h0 t0 = _ |- _ => rewrite (He _ _ Ht) end. cbn [ret].
      erewrite hbind_ok by exact E1. erewrite hbind_ok by exact E2. erewrite hbind_ok by exact E3. erewrite hbind_ok by exact E4.
      erewrite hbind_ok by exact E5. erewrite hbind_ok by exact E6. erewrite hbind_ok by exact E7. exact E8.
    + cbn. econstructor; [exact C8|apply Y2, C2| |apply Y3, C3| |apply Y4, C4| |apply Y5, C5| |apply Y6, C6| |apply X8, C7|constructor]; (eapply looks_mono; [|eassumption]; assumption).
Qed.

Lemma deepcopy_content_proof h l t fuel : closed h -> looks h (HRef l) t -> tsize t <= fuel ->
  exists h' m l', deepcopy fuel [] (HRef l) h = (h', Ok (m, HRef l')) /\ looks h' (HRef l') (strip t) /\ looks h' (HRef l) t.
Proof.
  intros [Ha _] Hl Hn. destruct (deepcopy_ok h fuel [] (HRef l) t h) as (h' & m & v' & E & L & _); auto.
  - intros x o Hx; exact Hx.
  - intros x x' Hm; discriminate.
  - assert (X : ext h h') by (eapply good_ext; [apply (good_deepcopy 0 fuel [] (HRef l))|exact Ha|exact E]).
    destruct v' as [a|l'].
    + exfalso. inversion Hl; subst; cbn in L; inversion L.
    + exists h', m, l'. split; [exact E|]. split; [exact L|]. eapply looks_mono; eauto.
Qed.

Lemma looks_same h h' :
  (forall v t, looks h v t -> (forall l x, In l (vref v) -> reach h l x -> cells h' x = cells h x) -> looks h' v t) /\
  (forall vs ts, looks_all h vs ts -> (forall l x, In l (flat_map vref vs) -> reach h l x -> cells h' x = cells h x) -> looks_all h' vs ts) /\
  (forall d td, looks_dict h d td -> (forall l x, In l (flat_map (fun kv => vref (snd kv)) d) -> reach h l x -> cells h' x = cells h x) -> looks_dict h' d td).
Proof.
  assert (Hhere : forall l o, cells h l = Some o -> (forall x, reach h l x -> cells h' x = cells h x) -> cells h' l = Some o).
  { intros l o Ho Hx. rewrite Hx by constructor. exact Ho. }
  assert (Hdown : forall l o q, cells h l = Some o -> In q (refs o) -> (forall x, reach h l x -> cells h' x = cells h x) -> (forall x, reach h q x -> cells h' x = cells h x)).
  { intros l o q Ho Hq Hx x Hr. apply Hx. eapply reach_step; eauto. }
  apply looks_mutind.
  - constructor.
  - intros l xs ts Hc Hl IH Hs. specialize (Hs l). cbn in Hs. econstructor; [eapply Hhere; [exact Hc|]; auto|]. apply IH. intros q x Hq. eapply Hdown; [exact Hc|exact Hq|auto].
  - intros l xs ts Hc Hl IH Hs. specialize (Hs l). cbn in Hs. econstructor; [eapply Hhere; [exact Hc|]; auto|]. apply IH. intros q x Hq. eapply Hdown; [exact Hc|exact Hq|auto].
  - intros l xs ts Hc Hl IH Hs. specialize (Hs l). cbn in Hs. econstructor; [eapply Hhere; [exact Hc|]; auto|]. apply IH. intros q x Hq. eapply Hdown; [exact Hc|exact Hq|auto].
  - intros l p d td Hc Hp Hl IH Hs. specialize (Hs l). cbn in Hs.
    assert (Hp' : forall x, reach h p x -> cells h' x = cells h x) by (intro x; eapply Hdown; [exact Hc|now left|auto]).
    econstructor; [eapply Hhere; [exact Hc|]; auto|eapply Hhere; [exact Hp|exact Hp']|]. apply IH. intros q x Hq. eapply Hdown; [exact Hp|exact Hq|exact Hp'].
  - intros l e a xs ts d td Hc He Hl IH Ha Hd IHd Hs. specialize (Hs l). cbn in Hs.
    assert (He' : forall x, reach h e x -> cells h' x = cells h x) by (intro x; eapply Hdown; [exact Hc|now left|auto]).
    assert (Ha' : forall x, reach h a x -> cells h' x = cells h x) by (intro x; eapply Hdown; [exact Hc|right; now left|auto]).
    econstructor; [eapply Hhere; [exact Hc|]; auto|eapply Hhere; [exact He|exact He']| |eapply Hhere; [exact Ha|exact Ha']|].
    + apply IH. intros q x Hq. eapply Hdown; [exact He|exact Hq|exact He'].
    + apply IHd. intros q x Hq. eapply Hdown; [exact Ha|exact Hq|exact Ha'].
  - intros l t a e c p g xs ts da ta de te dc tc dp tp dg tg Hc Ht Lt It Ha La Ia He Le Ie Hcc Lc Ic Hp Lp Ip Hg Lg Ig Hs. specialize (Hs l). cbn in Hs.
    assert (Hall : forall q, In q [t; a; e; c; p; g] -> forall x, reach h q x -> cells h' x = cells h x) by (intros q Hq x; eapply Hdown; [exact Hc|exact Hq|auto]).
    assert (Ht' : forall x, reach h t x -> cells h' x = cells h x) by (apply Hall; cbn; tauto).
    assert (Ha' : forall x, reach h a x -> cells h' x = cells h x) by (apply Hall; cbn; tauto).
    assert (He' : forall x, reach h e x -> cells h' x = cells h x) by (apply Hall; cbn; tauto).
    assert (Hc' : forall x, reach h c x -> cells h' x = cells h x) by (apply Hall; cbn; tauto).
    assert (Hp' : forall x, reach h p x -> cells h' x = cells h x) by (apply Hall; cbn; tauto).
    assert (Hg' : forall x, reach h g x -> cells h' x = cells h x) by (apply Hall; cbn; tauto).
    econstructor.
    + eapply Hhere; [exact Hc|]; auto.
    + eapply Hhere; [exact Ht|exact Ht'].
    + apply It. intros q x Hq. eapply Hdown; [exact Ht|exact Hq|exact Ht'].
    + eapply Hhere; [exact Ha|exact Ha'].
    + apply Ia. intros q x Hq. eapply Hdown; [exact Ha|exact Hq|exact Ha'].
    + eapply Hhere; [exact He|exact He'].
    + apply Ie. intros q x Hq. eapply Hdown; [exact He|exact Hq|exact He'].
    + eapply Hhere; [exact Hcc|exact Hc'].
    + apply Ic. intros q x Hq. eapply Hdown; [exact Hcc|exact Hq|exact Hc'].
    + eapply Hhere; [exact Hp|exact Hp'].
    + apply Ip. intros q x Hq. eapply Hdown; [exact Hp|exact Hq|exact Hp'].
    + eapply Hhere; [exact Hg|exact Hg'].
    + apply Ig. intros q x Hq. eapply Hdown; [exact Hg|exact Hq|exact Hg'].
  - constructor.
  - intros v t vs ts Hv IHv Hvs IHvs Hs. constructor; [apply IHv|apply IHvs]; intros l x Hl; apply Hs; cbn; apply in_or_app; auto.
  - constructor.
  - intros k v t vs ts Hv IHv Hvs IHvs Hs. constructor; [apply IHv|apply IHvs]; intros l x Hl; apply Hs; cbn; apply in_or_app; auto.
Qed.

Lemma reach_old h h' n : (forall x, x < n -> cells h' x = cells h x) -> (forall l o y, l < n -> cells h l = Some o -> In y (refs o) -> y < n) ->
  forall l x, reach h' l x -> l < n -> x < n /\ reach h l x.
Proof.
  intros Hsame Hc l x Hr. induction Hr as [l|l o y x Ho Hy Hr IH]; intro Hl; [split; [exact Hl|constructor]|].
  rewrite Hsame in Ho by exact Hl. destruct IH as [IH1 IH2]; [eapply Hc; eauto|]. split; [exact IH1|]. eapply reach_step; eauto.
Qed.

Lemma deepcopy_proof h l t : closed h -> looks h (HRef l) t ->
  exists n, forall fuel, n <= fuel ->
  exists h1 m l', deepcopy fuel [] (HRef l) h = (h1, Ok (m, HRef l')) /\
    looks h1 (HRef l) t /\ looks h1 (HRef l') (strip t) /\
    (forall h2, client l' h1 h2 -> (forall x, x < next h -> cells h2 x = cells h x) /\ looks h2 (HRef l) t) /\
    (forall h2, client l h1 h2 -> (forall x, reach h1 l' x -> cells h2 x = cells h1 x) /\ looks h2 (HRef l') (strip t)).
Proof.
  intros Hc Hl. exists (tsize t). intros fuel Hn.
  destruct (deepcopy_content_proof h l t fuel Hc Hl Hn) as (h1 & m & l' & E & L1 & L2). exists h1, m, l'. split; [exact E|]. split; [exact L2|]. split; [exact L1|].
  assert (Hll : l < next h).
  { destruct (le_lt_dec (next h) l) as [Hle|]; [|assumption]. destruct Hc as [Ha _]. specialize (Ha l Hle). inversion Hl; congruence. }
  split; intros h2 Hr.
  - assert (Hcells : forall x, x < next h -> cells h2 x = cells h x) by (intros x Hx; eapply (proj1 (deepcopy_isolated_proof fuel h h1 h2 l m l' Hc Hll E)); eauto).
    split; [exact Hcells|]. apply (proj1 (looks_same h h2) _ _ Hl). intros q x [<-|[]] Hrx. apply Hcells.
    revert Hrx Hll. apply (reach_inside h (fun l => l < next h)). destruct Hc as [_ Hc]. eauto.
  - assert (Hcells : forall x, reach h1 l' x -> cells h2 x = cells h1 x) by (intros x Hx; eapply (proj2 (deepcopy_isolated_proof fuel h h1 h2 l m l' Hc Hll E)); eauto).
    split; [exact Hcells|]. apply (proj1 (looks_same h1 h2) _ _ L1). intros q x [<-|[]] Hrx. apply Hcells, Hrx.
Qed.

(** Shallow copies. *)
Lemma shallow_dict_ok h0 p d h : cells h0 p = Some (ODict d) -> above h -> ext h0 h ->
  exists h' p', shallow_dict (HRef p) h = (h', Ok (HRef p')) /\ next h <= p' /\ next h <= next h' /\ cells h' p' = Some (ODict d) /\ ext h h' /\ above h' /\ ext h0 h'.
Proof.
  intros Hp Ha He. destruct (alloc_ok h0 (ODict d) h Ha He) as (h1 & E1 & C1 & X1 & A1 & X1'). exists h1, (next h).
  split; [|split; [lia|split; [|auto]]].
  - unfold shallow_dict, as_dict. unfold hbind at 1 2. cbn [deref peek]. rewrite (He _ _ Hp). cbn [ret]. erewrite hbind_ok by exact E1. reflexivity.
  - cbn in E1. injection E1 as <-. cbn. lia.
Qed.

(** The frame of a computation, without looking at references. *)
Definition frames {A} (m : H A) : Prop :=
  forall h, above h -> let '(h', _) := m h in next h <= next h' /\ (forall x, x < next h -> cells h' x = cells h x) /\ above h'.
Lemma frames_ret {A} (a : A) : frames (ret a).
Proof. intros h Ha. cbn. auto. Qed.
Lemma frames_fail {A} e : @frames A (fail e).
Proof. intros h Ha. cbn. auto. Qed.
Lemma frames_peek l : frames (peek l).
Proof. intros h Ha. cbn. auto. Qed.
Lemma frames_bind {A B} (m : H A) (f : A -> H B) : frames m -> (forall a, frames (f a)) -> frames (hbind m f).
Proof.
  intros Hm Hf h Ha. unfold hbind. specialize (Hm h Ha). destruct (m h) as [h1 [a|e]]; [|exact Hm]. destruct Hm as (M1 & M2 & M3).
  specialize (Hf a h1 M3). destruct (f a h1) as [h2 r]. destruct Hf as (F1 & F2 & F3). split; [lia|]. split; [|exact F3]. intros x Hx. rewrite F2 by lia. auto.
Qed.
Lemma frames_alloc o : frames (alloc o).
Proof.
  intros h Ha. cbn. split; [lia|]. split.
  - intros x Hx. unfold upd. destruct (Nat.eq_dec x (next h)); [lia|reflexivity].
  - intros x Hx. cbn in *. unfold upd. destruct (Nat.eq_dec x (next h)); [lia|]. apply Ha. lia.
Qed.
Lemma frames_deref v : frames (deref v).
Proof. destruct v; [apply frames_fail|apply frames_peek]. Qed.
Lemma frames_as_list v : frames (as_list v).
Proof. apply frames_bind; [apply frames_deref|]. intros []; first [apply frames_ret|apply frames_fail]. Qed.
Lemma frames_as_dict v : frames (as_dict v).
Proof. apply frames_bind; [apply frames_deref|]. intros []; first [apply frames_ret|apply frames_fail]. Qed.
Lemma frames_shallow_dict v : frames (shallow_dict v).
Proof. apply frames_bind; [apply frames_as_dict|]. intro d. apply frames_bind; [apply frames_alloc|]. intro. apply frames_ret. Qed.
Lemma frames_shallow_copy v : frames (shallow_copy v).
Proof.
  unfold shallow_copy. apply frames_bind; [apply frames_deref|].
  intros []; repeat (apply frames_bind; [first [apply frames_alloc|apply frames_as_list|apply frames_shallow_dict]|intro]); apply frames_ret.
Qed.

Lemma ext_refl h : ext h h.
Proof. intros x o Hx. exact Hx. Qed.

Lemma alloc_ok' o h : above h ->
  exists h', alloc o h = (h', Ok (next h)) /\ cells h' (next h) = Some o /\ ext h h' /\ above h' /\ next h' = S (next h).
Proof.
  intros Ha. destruct (alloc_ok h o h Ha (ext_refl h)) as (h' & E & C & X & A & _). exists h'. repeat split; auto. cbn in E. injection E as <-. reflexivity.
Qed.

Lemma shallow_copy_proof h l t : closed h -> looks h (HRef l) t ->
  exists h' l', shallow_copy (HRef l) h = (h', Ok (HRef l')) /\
    (forall x, x < next h -> cells h' x = cells h x) /\
    looks h' (HRef l') (strip_top t) /\
    (forall x, In x (containers h' l') -> next h <= x) /\
    (forall x, reach h' l' x -> In x (containers h' l') \/ reach h l x) /\
    (forall h2, (forall x, ~ In x (containers h' l') -> cells h2 x = cells h' x) -> looks h2 (HRef l) t) /\
    (forall tr a e c p g, cells h l = Some (OLog (HRef tr) a e c p g) ->
       exists tr' a' e' c' p' g', cells h' l' = Some (OLog (HRef tr') a' e' c' p' g') /\ cells h' tr' = cells h tr) /\
    (forall ev a, cells h l = Some (OTrace (HRef ev) a) ->
       exists ev' a', cells h' l' = Some (OTrace (HRef ev') a') /\ cells h' ev' = cells h ev).
Proof.
  intros Hc Hl. pose proof Hc as [Ha Hclosed].
  assert (Hll : l < next h).
  { destruct (le_lt_dec (next h) l) as [Hle|]; [|assumption]. specialize (Ha l Hle). inversion Hl; congruence. }
  (* everything but the shape of the result follows from the frame *)
  assert (Hrest : forall h' l', shallow_copy (HRef l) h = (h', Ok (HRef l')) -> looks h' (HRef l') (strip_top t) ->
    (forall x, In x (containers h' l') -> next h <= x) ->
    (forall c o y, In c (containers h' l') -> cells h' c = Some o -> In y (refs o) -> In y (containers h' l') \/ reach h l y) ->
    (forall tr a e c p g, cells h l = Some (OLog (HRef tr) a e c p g) ->
       exists tr' a' e' c' p' g', cells h' l' = Some (OLog (HRef tr') a' e' c' p' g') /\ cells h' tr' = cells h tr) ->
    (forall ev a, cells h l = Some (OTrace (HRef ev) a) ->
       exists ev' a', cells h' l' = Some (OTrace (HRef ev') a') /\ cells h' ev' = cells h ev) ->
    exists h' l', shallow_copy (HRef l) h = (h', Ok (HRef l')) /\
    (forall x, x < next h -> cells h' x = cells h x) /\
    looks h' (HRef l') (strip_top t) /\
    (forall x, In x (containers h' l') -> next h <= x) /\
    (forall x, reach h' l' x -> In x (containers h' l') \/ reach h l x) /\
    (forall h2, (forall x, ~ In x (containers h' l') -> cells h2 x = cells h' x) -> looks h2 (HRef l) t) /\
    (forall tr a e c p g, cells h l = Some (OLog (HRef tr) a e c p g) ->
       exists tr' a' e' c' p' g', cells h' l' = Some (OLog (HRef tr') a' e' c' p' g') /\ cells h' tr' = cells h tr) /\
    (forall ev a, cells h l = Some (OTrace (HRef ev) a) ->
       exists ev' a', cells h' l' = Some (OTrace (HRef ev') a') /\ cells h' ev' = cells h ev)).
  { intros h' l' E L Hfresh Hcont Hlog Htrace. exists h', l'. split; [exact E|].
    pose proof (frames_shallow_copy (HRef l) h Ha) as Hf. rewrite E in Hf. destruct Hf as (F1 & F2 & F3).
    split; [exact F2|]. split; [exact L|]. split; [exact Hfresh|]. split; [|split; [|split; assumption]].
    - assert (Hold : forall y x, reach h' y x -> reach h l y -> y < next h -> reach h l x).
      { intros y x Hr Hy Hlt. eapply reach_trans; [exact Hy|]. eapply (reach_old h h' (next h)); eauto. }
      assert (Hlt : forall x, reach h l x -> x < next h).
      { intros x Hr. revert Hr Hll. apply (reach_inside h (fun l => l < next h)). eauto. }
      assert (Hgen : forall y x, reach h' y x -> In y (containers h' l') \/ reach h l y -> In x (containers h' l') \/ reach h l x).
      { intros y x Hr. induction Hr as [|q o y x Hq Hy Hr IH]; intro Hin; [exact Hin|]. apply IH. destruct Hin as [Hin|Hin]; [eapply Hcont; eauto|].
        right. rewrite F2 in Hq by (apply Hlt, Hin). eapply reach_trans; [exact Hin|]. eapply reach_one; eauto. }
      intros x Hr. apply (Hgen _ _ Hr). left. now left.
    - intros h2 H2. apply (proj1 (looks_same h h2) _ _ Hl). intros q x [<-|[]] Hr.
      assert (Hx : x < next h) by (revert Hr Hll; apply (reach_inside h (fun l => l < next h)); eauto).
      rewrite H2; [apply F2, Hx|]. intro Hin. apply Hfresh in Hin. lia. }
  inversion Hl; subst; match goal with Hcl : cells h l = Some ?o |- _ => pose proof Hcl as Hcell end.
  - destruct (alloc_ok' (OList xs) h Ha) as (h1 & E1 & C1 & X1 & A1 & N1). apply (Hrest h1 (next h)).
    + unfold shallow_copy. unfold hbind at 1. cbn [deref peek]. rewrite Hcell. erewrite hbind_ok by exact E1. reflexivity.
    + cbn. econstructor; [exact C1|]. eapply looks_mono; eauto.
    + intros x Hx. unfold containers in Hx. rewrite C1 in Hx. destruct Hx as [<-|[]]. lia.
    + unfold containers. rewrite C1. intros c o y [<-|[]] Ho Hy. rewrite C1 in Ho. injection Ho as <-. right. eapply reach_one; eauto.
    + intros; congruence.
    + intros; congruence.
  - destruct (alloc_ok' (ODict d) h Ha) as (h1 & E1 & C1 & X1 & A1 & N1). apply (Hrest h1 (next h)).
    + unfold shallow_copy. unfold hbind at 1. cbn [deref peek]. rewrite Hcell. erewrite hbind_ok by exact E1. reflexivity.
    + cbn. econstructor; [exact C1|]. eapply looks_mono; eauto.
    + intros x Hx. unfold containers in Hx. rewrite C1 in Hx. destruct Hx as [<-|[]]. lia.
    + unfold containers. rewrite C1. intros c o y [<-|[]] Ho Hy. rewrite C1 in Ho. injection Ho as <-. right. eapply reach_one; eauto.
    + intros; congruence.
    + intros; congruence.
  - destruct (alloc_ok' (OInst d) h Ha) as (h1 & E1 & C1 & X1 & A1 & N1). apply (Hrest h1 (next h)).
    + unfold shallow_copy. unfold hbind at 1. cbn [deref peek]. rewrite Hcell. erewrite hbind_ok by exact E1. reflexivity.
    + cbn. econstructor; [exact C1|]. eapply looks_mono; eauto.
    + intros x Hx. unfold containers in Hx. rewrite C1 in Hx. destruct Hx as [<-|[]]. lia.
    + unfold containers. rewrite C1. intros c o y [<-|[]] Ho Hy. rewrite C1 in Ho. injection Ho as <-. right. eapply reach_one; eauto.
    + intros; congruence.
    + intros; congruence.
  - match goal with Hp : cells h p = _ |- _ => pose proof Hp as Hpay end.
    destruct (shallow_dict_ok h p d h Hpay Ha (ext_refl h)) as (h1 & p' & E1 & N1 & N1' & C1 & X1 & A1 & _).
    destruct (alloc_ok' (OEvent (HRef p')) h1 A1) as (h2 & E2 & C2 & X2 & A2 & N2). apply (Hrest h2 (next h1)).
    + unfold shallow_copy. unfold hbind at 1. cbn [deref peek]. rewrite Hcell. erewrite hbind_ok by exact E1. erewrite hbind_ok by exact E2. reflexivity.
    + cbn. econstructor; [exact C2|apply X2, C1|]. eapply looks_mono; [exact X2|]. eapply looks_mono; [exact X1|]. assumption.
    + intros x Hx. unfold containers in Hx. rewrite C2 in Hx. cbn in Hx. destruct Hx as [<-|[<-|[]]]; lia.
    + unfold containers. rewrite C2. cbn [refs vref]. intros c o y [<-|[<-|[]]] Ho Hy.
      * rewrite C2 in Ho. injection Ho as <-. left. right. exact Hy.
      * rewrite (X2 _ _ C1) in Ho. injection Ho as <-. right. eapply reach_step; [exact Hcell|now left|]. eapply reach_one; eauto.
    + intros; congruence.
    + intros; congruence.
  - match goal with He : cells h e = _ |- _ => pose proof He as Hev end.
    destruct (alloc_ok' (OList xs) h Ha) as (h1 & E1 & C1 & X1 & A1 & N1).
    destruct (alloc_ok' (ODict []) h1 A1) as (h2 & E2 & C2 & X2 & A2 & N2).
    destruct (alloc_ok' (OTrace (HRef (next h)) (HRef (next h1))) h2 A2) as (h3 & E3 & C3 & X3 & A3 & N3). apply (Hrest h3 (next h2)).
    + unfold shallow_copy. unfold hbind at 1. cbn [deref peek]. rewrite Hcell. unfold as_list. unfold hbind at 1 2. cbn [deref peek]. rewrite Hev. cbn [ret].
      erewrite hbind_ok by exact E1. erewrite hbind_ok by exact E2. erewrite hbind_ok by exact E3. reflexivity.
    + cbn. econstructor; [exact C3|apply X3, X2, C1| |apply X3, C2|constructor]. eapply looks_mono; [exact X3|]. eapply looks_mono; [exact X2|]. eapply looks_mono; [exact X1|]. assumption.
    + intros x Hx. unfold containers in Hx. rewrite C3 in Hx. cbn in Hx. destruct Hx as [<-|[<-|[<-|[]]]]; lia.
    + unfold containers. rewrite C3. cbn [refs vref app]. intros c o y [<-|[<-|[<-|[]]]] Ho Hy.
      * rewrite C3 in Ho. injection Ho as <-. left. right. exact Hy.
      * rewrite (X3 _ _ (X2 _ _ C1)) in Ho. injection Ho as <-. right. eapply reach_step; [exact Hcell|now left|]. eapply reach_one; eauto.
      * rewrite (X3 _ _ C2) in Ho. injection Ho as <-. destruct Hy.
    + intros; congruence.
    + intros ev a0 He0. rewrite Hcell in He0. injection He0 as <- <-. exists (next h), (HRef (next h1)). split; [exact C3|]. rewrite (X3 _ _ (X2 _ _ C1)). now symmetry.
  - match goal with Ht : cells h t0 = _, Ha0 : cells h a = _, He0 : cells h e = _, Hc0 : cells h c = _, Hp0 : cells h p = _ |- _ => pose proof Ht as Htr; pose proof Ha0 as Hat; pose proof He0 as Het; pose proof Hc0 as Hct; pose proof Hp0 as Hpt end.
    destruct (alloc_ok' (OList xs) h Ha) as (h1 & E1 & C1 & X1 & A1 & N1).
    destruct (shallow_dict_ok h a da h1 Hat A1 X1) as (h2 & a' & E2 & N2 & N2' & C2 & X2 & A2 & Z2).
    destruct (shallow_dict_ok h e de h2 Het A2 Z2) as (h3 & e' & E3 & N3 & N3' & C3 & X3 & A3 & Z3).
    destruct (shallow_dict_ok h c dc h3 Hct A3 Z3) as (h4 & c' & E4 & N4 & N4' & C4 & X4 & A4 & Z4).
    destruct (shallow_dict_ok h p dp h4 Hpt A4 Z4) as (h5 & p' & E5 & N5 & N5' & C5 & X5 & A5 & Z5).
    destruct (alloc_ok' (ODict []) h5 A5) as (h6 & E6 & C6 & X6 & A6 & N6).
    destruct (alloc_ok' (OLog (HRef (next h)) (HRef a') (HRef e') (HRef c') (HRef p') (HRef (next h5))) h6 A6) as (h7 & E7 & C7 & X7 & A7 & N7).
    assert (Y5 : ext h5 h7) by (eapply ext_trans; eauto). assert (Y4 : ext h4 h7) by (eapply ext_trans; eauto). assert (Y3 : ext h3 h7) by (eapply ext_trans; eauto).
    assert (Y2 : ext h2 h7) by (eapply ext_trans; eauto). assert (Y1 : ext h1 h7) by (eapply ext_trans; eauto). assert (Y0 : ext h h7) by (eapply ext_trans; eauto).
    apply (Hrest h7 (next h6)).
    + unfold shallow_copy. unfold hbind at 1. cbn [deref peek]. rewrite Hcell. unfold as_list. unfold hbind at 1 2. cbn [deref peek]. rewrite Htr. cbn [ret].
      erewrite hbind_ok by exact E1. erewrite hbind_ok by exact E2. erewrite hbind_ok by exact E3. erewrite hbind_ok by exact E4.
      erewrite hbind_ok by exact E5. erewrite hbind_ok by exact E6. erewrite hbind_ok by exact E7. reflexivity.
    + cbn. econstructor; [exact C7|apply Y1, C1| |apply Y2, C2| |apply Y3, C3| |apply Y4, C4| |apply Y5, C5| |apply X7, C6|constructor]; (eapply looks_mono; [exact Y0|assumption]).
    + intros x Hx. unfold containers in Hx. rewrite C7 in Hx. cbn in Hx. destruct Hx as [<-|[<-|[<-|[<-|[<-|[<-|[<-|[]]]]]]]]; lia.
    + unfold containers. rewrite C7. cbn [refs vref app].
      assert (Hvia : forall q o y, In q [t0; a; e; c; p; g] -> cells h q = Some o -> In y (refs o) -> reach h l y).
      { intros q o y Hq Ho Hy. eapply reach_step; [exact Hcell|exact Hq|]. eapply reach_one; eauto. }
      intros q o y [<-|[<-|[<-|[<-|[<-|[<-|[<-|[]]]]]]]] Ho Hy.
      * rewrite C7 in Ho. injection Ho as <-. left. right. exact Hy.
      * rewrite (Y1 _ _ C1) in Ho. injection Ho as <-. right. eapply Hvia; [|exact Htr|exact Hy]. cbn; tauto.
      * rewrite (Y2 _ _ C2) in Ho. injection Ho as <-. right. eapply Hvia; [|exact Hat|exact Hy]. cbn; tauto.
      * rewrite (Y3 _ _ C3) in Ho. injection Ho as <-. right. eapply Hvia; [|exact Het|exact Hy]. cbn; tauto.
      * rewrite (Y4 _ _ C4) in Ho. injection Ho as <-. right. eapply Hvia; [|exact Hct|exact Hy]. cbn; tauto.
      * rewrite (Y5 _ _ C5) in Ho. injection Ho as <-. right. eapply Hvia; [|exact Hpt|exact Hy]. cbn; tauto.
      * rewrite (X7 _ _ C6) in Ho. injection Ho as <-. destruct Hy.
    + intros tr a0 e0 c0 p0 g0 Hq. rewrite Hcell in Hq. injection Hq as <- <- <- <- <- <-. exists (next h), (HRef a'), (HRef e'), (HRef c'), (HRef p'), (HRef (next h5)). split; [exact C7|]. rewrite (Y1 _ _ C1). now symmetry.
    + intros; congruence.
Qed.

(** Copies compare equal. *)
Lemma all_some_strip {B} (f : tree -> option B) ts bs : (forall t b, f t = Some b -> f (strip t) = Some b) -> all_some f ts = Some bs -> all_some f (map strip ts) = Some bs.
Proof.
  intros Hf. revert bs. induction ts as [|t ts IH]; intros bs E; cbn in *; [exact E|]. destruct (f t) as [b|] eqn:Eb; [|discriminate]. destruct (all_some f ts) as [r|]; [|discriminate]. injection E as <-.
  rewrite (Hf _ _ Eb), (IH r eq_refl). reflexivity.
Qed.
Lemma pair_some_strip {B} (f : tree -> option B) td bs : (forall t b, f t = Some b -> f (strip t) = Some b) -> all_some (pair_some f) td = Some bs -> all_some (pair_some f) (strip_d td) = Some bs.
Proof.
  intros Hf. revert bs. induction td as [|[k t] td IH]; intros bs E; cbn in *; [exact E|]. unfold pair_some in *. cbn [fst snd] in *. destruct (f t) as [b|] eqn:Eb; [|discriminate]. destruct (all_some _ td) as [r|]; [|discriminate]. injection E as <-.
  rewrite (Hf _ _ Eb), (IH r eq_refl). reflexivity.
Qed.
Lemma tree_value_strip t v : tree_value t = Some v -> tree_value (strip t) = Some v.
Proof. destruct t; cbn; congruence. Qed.
Lemma tree_str_strip t v : tree_str t = Some v -> tree_str (strip t) = Some v.
Proof. destruct t; cbn; congruence. Qed.
Lemma tree_event_strip t v : tree_event t = Some v -> tree_event (strip t) = Some v.
Proof. destruct t; cbn; try congruence. apply (pair_some_strip tree_value), tree_value_strip. Qed.
Lemma tree_dict_strip {B} (f : tree -> option B) t v : (forall t b, f t = Some b -> f (strip t) = Some b) -> tree_dict f t = Some v -> tree_dict f (strip t) = Some v.
Proof. intro Hf. destruct t; cbn; try congruence. apply (pair_some_strip f), Hf. Qed.
Lemma tree_strs_strip t v : tree_strs t = Some v -> tree_strs (strip t) = Some v.
Proof. destruct t; cbn; try congruence. apply all_some_strip, tree_str_strip. Qed.

Definition drop_attrs (t : trace) : trace := mkTrace (t_events t) [].
Lemma tree_trace_strip t v : tree_trace t = Some v -> tree_trace (strip t) = Some (drop_attrs v).
Proof.
  destruct t; cbn; try discriminate. destruct (all_some tree_event events) as [es|] eqn:E; [|discriminate]. destruct (all_some _ attributes); [|discriminate].
  intros [= <-]. rewrite (all_some_strip _ _ _ tree_event_strip E). reflexivity.
Qed.
Lemma tree_traces_strip ts vs : all_some tree_trace ts = Some vs -> all_some tree_trace (map strip ts) = Some (map drop_attrs vs).
Proof.
  revert vs. induction ts as [|t ts IH]; intros vs E; cbn in *; [injection E as <-; reflexivity|]. destruct (tree_trace t) as [b|] eqn:Eb; [|discriminate]. destruct (all_some tree_trace ts) as [r|]; [|discriminate]. injection E as <-.
  rewrite (tree_trace_strip _ _ Eb), (IH r eq_refl). reflexivity.
Qed.

Lemma tree_log_strip_proof t L : tree_log t = Some L ->
  tree_log (strip t) = Some (mkLog (map (fun tr => mkTrace (t_events tr) []) (l_traces L)) (l_attrs L) (l_extensions L) (l_classifiers L) (l_properties L) []).
Proof.
  destruct t; try discriminate. cbn [tree_log]. destruct (all_some tree_trace traces) as [ts|] eqn:E1; [|discriminate]. destruct (all_some _ attributes) as [a|] eqn:E2; [|discriminate].
  destruct (all_some _ extensions) as [e|] eqn:E3; [|discriminate]. destruct (all_some _ classifiers) as [c|] eqn:E4; [|discriminate]. destruct (all_some _ properties) as [p|] eqn:E5; [|discriminate]. destruct (all_some _ global_values) as [g|] eqn:E6; [|discriminate].
  intros [= <-]. cbn [strip tree_log].
  rewrite (tree_traces_strip _ _ E1). fold strip_d. change (map (fun kt : pystr * tree => (fst kt, strip (snd kt)))) with strip_d.
  rewrite (pair_some_strip _ _ _ tree_str_strip E2), (pair_some_strip _ _ _ (fun t b => tree_dict_strip tree_str t b tree_str_strip) E3), (pair_some_strip _ _ _ tree_strs_strip E4), (pair_some_strip _ _ _ tree_value_strip E5). reflexivity.
Qed.

Lemma copies_equal_proof : forall tostr show_ext show_cls tuple_hash t L, tree_log t = Some L ->
  exists L' L'', tree_log (strip t) = Some L' /\ tree_log (strip_top t) = Some L'' /\
    log_eq tostr show_ext show_cls tuple_hash L L' = true /\ log_eq tostr show_ext show_cls tuple_hash L L'' = true /\
    map t_events (l_traces L') = map t_events (l_traces L) /\ l_traces L'' = l_traces L.
Proof.
  intros tostr show_ext show_cls tuple_hash t L E. eexists. exists (mkLog (l_traces L) (l_attrs L) (l_extensions L) (l_classifiers L) (l_properties L) []).
  split; [apply tree_log_strip_proof, E|]. split; [|split; [|split; [|split]]].
  - destruct t; try discriminate. cbn [strip_top tree_log] in *. destruct (all_some tree_trace traces); [|discriminate]. destruct (all_some _ attributes); [|discriminate].
    destruct (all_some _ extensions); [|discriminate]. destruct (all_some _ classifiers); [|discriminate]. destruct (all_some _ properties); [|discriminate]. destruct (all_some _ global_values); [|discriminate].
    injection E as <-. reflexivity.
  - unfold log_eq, log_hash. cbn [l_traces l_attrs l_extensions l_classifiers l_properties]. rewrite map_map. apply Z.eqb_refl.
  - apply Z.eqb_refl.
  - cbn. rewrite map_map. reflexivity.
  - reflexivity.
Qed.
