From Verif Require Import Py PyFacts LogModel MutModel HeapModel HeapSpec HeapProofs HMutModel HMutSpec.
From Coq Require Import Lia.

(** Structural reading of [shows]. *)
Definition ent {A B} (R : A -> B -> Prop) (d : dict pystr A) (bs : dict pystr B) : Prop :=
  Forall2 (fun kv kb => fst kv = fst kb /\ R (snd kv) (snd kb)) d bs.
Definition atom_is (v : hv) (b : value) := v = HAtom b.
Definition str_is (v : hv) (s : pystr) := v = HAtom (VStr s).
Definition dict_is {B} (h : heap) (R : hv -> B -> Prop) (v : hv) (bs : dict pystr B) : Prop :=
  exists l d, v = HRef l /\ cells h l = Some (ODict d) /\ ent R d bs.
Definition list_is {B} (h : heap) (R : hv -> B -> Prop) (v : hv) (bs : list B) : Prop :=
  exists l xs, v = HRef l /\ cells h l = Some (OList xs) /\ Forall2 R xs bs.
Definition ev_is (h : heap) (v : hv) (e : event) : Prop :=
  exists l p, v = HRef l /\ cells h l = Some (OEvent (HRef p)) /\ dict_is h atom_is (HRef p) e.
Definition tr_is (h : heap) (v : hv) (t : trace) : Prop :=
  exists l le la, v = HRef l /\ cells h l = Some (OTrace (HRef le) (HRef la)) /\ list_is h (ev_is h) (HRef le) (t_events t) /\ dict_is h atom_is (HRef la) (t_attrs t).
Definition meta_is (h : heap) (a e c p g : hv) (L : eventlog) : Prop :=
  dict_is h str_is a (l_attrs L) /\ dict_is h (dict_is h str_is) e (l_extensions L) /\ dict_is h (list_is h str_is) c (l_classifiers L) /\
  dict_is h atom_is p (l_properties L) /\ dict_is h (dict_is h atom_is) g (l_globals L).
Definition log_is (h : heap) (v : hv) (L : eventlog) : Prop :=
  exists l t a e c p g, v = HRef l /\ cells h l = Some (OLog (HRef t) (HRef a) (HRef e) (HRef c) (HRef p) (HRef g)) /\
    list_is h (tr_is h) (HRef t) (l_traces L) /\ meta_is h (HRef a) (HRef e) (HRef c) (HRef p) (HRef g) L.

Section Reading.
  Variable h : heap.
  Lemma ent_of {B} (f : tree -> option B) (R : hv -> B -> Prop) d td : looks_dict h d td -> (forall v t b, looks h v t -> f t = Some b -> R v b) ->
    forall bs, all_some (pair_some f) td = Some bs -> ent R d bs.
  Proof.
    intros Hl HR. induction Hl as [|k v t d td Hv Hd IH]; cbn; intros bs E; [injection E as <-; constructor|].
    unfold pair_some at 1 in E. cbn in E. destruct (f t) as [b|] eqn:Ef; [|discriminate]. destruct (all_some (pair_some f) td) as [bs'|]; [|discriminate]. injection E as <-.
    constructor; [cbn; split; [reflexivity|eauto]|auto]. apply IH. reflexivity.
  Qed.
  Lemma all_of {B} (f : tree -> option B) (R : hv -> B -> Prop) d td : looks_all h d td -> (forall v t b, looks h v t -> f t = Some b -> R v b) ->
    forall bs, all_some f td = Some bs -> Forall2 R d bs.
  Proof.
    intros Hl HR. induction Hl as [|v t d td Hv Hd IH]; cbn; intros bs E; [injection E as <-; constructor|].
    destruct (f t) as [b|] eqn:Ef; [|discriminate]. destruct (all_some f td) as [bs'|]; [|discriminate]. injection E as <-.
    constructor; [eauto|auto].
  Qed.
  Lemma to_ent {B} (f : tree -> option B) (R : hv -> B -> Prop) d bs : (forall v b, R v b -> exists t, looks h v t /\ f t = Some b) -> ent R d bs ->
    exists td, looks_dict h d td /\ all_some (pair_some f) td = Some bs.
  Proof.
    intros HR Hl. induction Hl as [|[k v] [k' b] d bs [Hk Hv] Hd (td & IH1 & IH2)]; [exists []; split; [constructor|reflexivity]|].
    cbn in Hk, Hv. subst k'. destruct (HR _ _ Hv) as (t & Ht & Hf). exists ((k, t) :: td). split; [constructor; auto|].
    cbn. unfold pair_some at 1. cbn. now rewrite Hf, IH2.
  Qed.
  Lemma to_all {B} (f : tree -> option B) (R : hv -> B -> Prop) d bs : (forall v b, R v b -> exists t, looks h v t /\ f t = Some b) -> Forall2 R d bs ->
    exists td, looks_all h d td /\ all_some f td = Some bs.
  Proof.
    intros HR Hl. induction Hl as [|v b d bs Hv Hd (td & IH1 & IH2)]; [exists []; split; [constructor|reflexivity]|].
    destruct (HR _ _ Hv) as (t & Ht & Hf). exists (t :: td). split; [constructor; auto|]. cbn. now rewrite Hf, IH2.
  Qed.

  Lemma r_value v t b : looks h v t -> tree_value t = Some b -> atom_is v b.
  Proof. intros Hl E. destruct Hl; try discriminate. injection E as <-. reflexivity. Qed.
  Lemma r_str v t b : looks h v t -> tree_str t = Some b -> str_is v b.
  Proof. intros Hl E. destruct Hl; try discriminate. destruct v; try discriminate. injection E as <-. reflexivity. Qed.
  Lemma r_dict {B} (f : tree -> option B) (R : hv -> B -> Prop) v t b : (forall v t b, looks h v t -> f t = Some b -> R v b) -> looks h v t -> tree_dict f t = Some b -> dict_is h R v b.
  Proof. intros HR Hl E. destruct Hl; try discriminate. cbn in E. exists l, d. repeat split; auto. eapply ent_of; eauto. Qed.
  Lemma r_strs v t b : looks h v t -> tree_strs t = Some b -> list_is h str_is v b.
  Proof. intros Hl E. destruct Hl; try discriminate. cbn in E. exists l, xs. repeat split; auto. eapply all_of; eauto. apply r_str. Qed.
  Lemma r_event v t b : looks h v t -> tree_event t = Some b -> ev_is h v b.
  Proof. intros Hl E. destruct Hl; try discriminate. cbn in E. exists l, p. repeat split; auto. exists p, d. repeat split; auto. eapply ent_of; eauto. apply r_value. Qed.
  Lemma r_trace v t b : looks h v t -> tree_trace t = Some b -> tr_is h v b.
  Proof.
    intros Hl E. destruct Hl; try discriminate. cbn in E. destruct (all_some tree_event ts) as [es|] eqn:E1; [|discriminate]. destruct (all_some (pair_some tree_value) td) as [ats|] eqn:E2; [|discriminate]. injection E as <-.
    exists l, e, a. repeat split; auto; [exists e, xs|exists a, d]; repeat split; auto; [eapply all_of|eapply ent_of]; eauto; [apply r_event|apply r_value].
  Qed.
  Lemma w_value v b : atom_is v b -> exists t, looks h v t /\ tree_value t = Some b.
  Proof. intros ->. exists (TAtom b). split; [constructor|reflexivity]. Qed.
  Lemma w_str v b : str_is v b -> exists t, looks h v t /\ tree_str t = Some b.
  Proof. intros ->. exists (TAtom (VStr b)). split; [constructor|reflexivity]. Qed.
  Lemma w_dict {B} (f : tree -> option B) (R : hv -> B -> Prop) v b : (forall v b, R v b -> exists t, looks h v t /\ f t = Some b) -> dict_is h R v b -> exists t, looks h v t /\ tree_dict f t = Some b.
  Proof. intros HR (l & d & -> & Hc & He). destruct (to_ent f R d b HR He) as (td & T1 & T2). exists (TDict td). split; [econstructor; eauto|exact T2]. Qed.
  Lemma w_strs v b : list_is h str_is v b -> exists t, looks h v t /\ tree_strs t = Some b.
  Proof. intros (l & d & -> & Hc & He). destruct (to_all tree_str str_is d b w_str He) as (td & T1 & T2). exists (TList td). split; [econstructor; eauto|exact T2]. Qed.
  Lemma w_event v b : ev_is h v b -> exists t, looks h v t /\ tree_event t = Some b.
  Proof. intros (l & p & -> & Hc & p' & d & [= <-] & Hp & He). destruct (to_ent tree_value _ d b w_value He) as (td & T1 & T2). exists (TEvent td). split; [econstructor; eauto|exact T2]. Qed.
  Lemma w_trace v b : tr_is h v b -> exists t, looks h v t /\ tree_trace t = Some b.
  Proof.
    intros (l & le & la & -> & Hc & (x1 & xs & [= <-] & C1 & F1) & (x2 & d & [= <-] & C2 & F2)).
    destruct (to_all tree_event _ _ _ w_event F1) as (ts & T1 & T2). destruct (to_ent tree_value _ _ _ w_value F2) as (td & T3 & T4).
    exists (TTrace ts td). split; [econstructor; eauto|]. cbn. rewrite T2, T4. now destruct b.
  Qed.

  Lemma shows_log v L : shows h v L <-> log_is h v L.
  Proof.
    split.
    - intros (t & Hl & E). destruct Hl; try discriminate. cbn in E.
      repeat match type of E with (match ?x with Some _ => _ | None => None end) = _ => let n := fresh "E" in destruct x eqn:n; [|discriminate] end. injection E as <-.
      exists l, t, a, e, c, p, g. split; [reflexivity|]. split; [assumption|]. unfold meta_is. cbn [l_traces l_attrs l_extensions l_classifiers l_properties l_globals].
      repeat split.
      + exists t, xs. repeat split; auto. eapply all_of; eauto. apply r_trace.
      + exists a, da. repeat split; auto. eapply ent_of; eauto. apply r_str.
      + exists e, de. repeat split; auto. eapply ent_of; eauto. intros v t' b. apply r_dict. apply r_str.
      + exists c, dc. repeat split; auto. eapply ent_of; eauto. apply r_strs.
      + exists p, dp. repeat split; auto. eapply ent_of; eauto. apply r_value.
      + exists g, dg. repeat split; auto. eapply ent_of; eauto. intros v t' b. apply r_dict. apply r_value.
    - intros (l & t & a & e & c & p & g & -> & Hc & (x1 & xs & [= <-] & C1 & F1) & (x2 & da & [= <-] & C2 & F2) & (x3 & de & [= <-] & C3 & F3) & (x4 & dc & [= <-] & C4 & F4) & (x5 & dp & [= <-] & C5 & F5) & (x6 & dg & [= <-] & C6 & F6)).
      destruct (to_all tree_trace _ _ _ w_trace F1) as (t1 & A1 & B1). destruct (to_ent tree_str _ _ _ w_str F2) as (t2 & A2 & B2).
      destruct (to_ent (tree_dict tree_str) _ _ _ (fun v b => w_dict tree_str _ v b w_str) F3) as (t3 & A3 & B3).
      destruct (to_ent tree_strs _ _ _ w_strs F4) as (t4 & A4 & B4). destruct (to_ent tree_value _ _ _ w_value F5) as (t5 & A5 & B5).
      destruct (to_ent (tree_dict tree_value) _ _ _ (fun v b => w_dict tree_value _ v b w_value) F6) as (t6 & A6 & B6).
      exists (TLog t1 t2 t3 t4 t5 t6). split; [econstructor; eauto|]. cbn. rewrite B1, B2, B3, B4, B5, B6. now destruct L.
  Qed.
End Reading.

Lemma Forall2_imp {A B} (R S : A -> B -> Prop) l m : Forall2 R l m -> (forall a b, In a l -> R a b -> S a b) -> Forall2 S l m.
Proof. induction 1; intro HS; constructor; [apply HS; [now left|auto]|apply IHForall2; intros; apply HS; [now right|auto]]. Qed.
Lemma ent_imp {A B} (R S : A -> B -> Prop) d bs : ent R d bs -> (forall a b, In a (map snd d) -> R a b -> S a b) -> ent S d bs.
Proof. intros He HS. eapply Forall2_imp; [exact He|]. intros [k a] [k' b] Hin [H1 H2]. split; [exact H1|]. apply HS; [apply in_map_iff; eexists; split; [|exact Hin]; reflexivity|exact H2]. Qed.

Lemma ent_atoms d e : ent atom_is d e <-> d = put_payload e.
Proof.
  split.
  - induction 1 as [|[k v] [k' b] d bs [Hk Hv] Hd IH]; [reflexivity|]. cbn in *. unfold atom_is in Hv. subst. reflexivity.
  - intros ->. induction e as [|[k v] e IH]; [constructor|]. constructor; [split; reflexivity|exact IH].
Qed.
Lemma flat_put e : flat_payload (put_payload e) = Ok e.
Proof. induction e as [|[k v] e IH]; [reflexivity|]. transitivity (bind (flat_payload (put_payload e)) (fun ys => Ok ((k, v) :: ys))); [reflexivity|]. now rewrite IH. Qed.
Lemma refs_put e : refs (ODict (put_payload e)) = [].
Proof. induction e as [|[k v] e IH]; [reflexivity|]. exact IH. Qed.

(** Reading under a changed heap: [keep] says which locations are the same. *)
Section Frame.
  Variables (h h' : heap) (keep : loc -> Prop).
  Hypothesis same : forall x, keep x -> cells h' x = cells h x.
  Lemma f_dict {B} (R R' : hv -> B -> Prop) v bs : dict_is h R v bs -> (forall l, In l (vref v) -> keep l) ->
    (forall l d x b, In l (vref v) -> cells h l = Some (ODict d) -> In x (map snd d) -> R x b -> R' x b) -> dict_is h' R' v bs.
  Proof. intros (l & d & -> & Hc & He) Hk HR. exists l, d. split; [reflexivity|]. split; [rewrite same by (apply Hk; now left); exact Hc|]. eapply ent_imp; [exact He|]. intros. eapply HR; eauto. now left. Qed.
  Lemma f_list {B} (R R' : hv -> B -> Prop) v bs : list_is h R v bs -> (forall l, In l (vref v) -> keep l) ->
    (forall l d x b, In l (vref v) -> cells h l = Some (OList d) -> In x d -> R x b -> R' x b) -> list_is h' R' v bs.
  Proof. intros (l & d & -> & Hc & He) Hk HR. exists l, d. split; [reflexivity|]. split; [rewrite same by (apply Hk; now left); exact Hc|]. eapply Forall2_imp; [exact He|]. intros. eapply HR; eauto. now left. Qed.
  Lemma f_event v e : ev_is h v e -> (forall l, In l (vref v) -> keep l) -> (forall l p, In l (vref v) -> payload_of h l p -> keep p) -> ev_is h' v e.
  Proof.
    intros (l & p & -> & Hc & Hd) Hl Hp. exists l, p. split; [reflexivity|]. split; [rewrite same by (apply Hl; now left); exact Hc|].
    eapply f_dict; [exact Hd| |auto]. intros l' [<-|[]]. eapply Hp; [now left|exact Hc].
  Qed.

  (** Metadata, when everything that plain containers refer to is kept. *)
  Hypothesis plain : forall y o z, cells h y = Some o -> match o with OList _ | ODict _ | OLog _ _ _ _ _ _ => True | _ => False end -> In z (refs o) -> keep z.
  Lemma in_refs_dict l d x z : cells h l = Some (ODict d) -> In x (map snd d) -> In z (vref x) -> keep z.
  Proof. intros Hc Hx Hz. eapply plain; [exact Hc|exact I|]. cbn. apply in_flat_map. apply in_map_iff in Hx as (kv & <- & Hkv). eauto. Qed.
  Lemma in_refs_list l d x z : cells h l = Some (OList d) -> In x d -> In z (vref x) -> keep z.
  Proof. intros Hc Hx Hz. eapply plain; [exact Hc|exact I|]. cbn. apply in_flat_map. eauto. Qed.
  Lemma f_meta a e c p g L : meta_is h (HRef a) (HRef e) (HRef c) (HRef p) (HRef g) L -> keep a -> keep e -> keep c -> keep p -> keep g ->
    meta_is h' (HRef a) (HRef e) (HRef c) (HRef p) (HRef g) L.
  Proof.
    intros (M1 & M2 & M3 & M4 & M5) K1 K2 K3 K4 K5. repeat split.
    - eapply f_dict; [exact M1| |auto]. now intros ? [<-|[]].
    - eapply f_dict; [exact M2|now intros ? [<-|[]]|]. intros l d x b Hl Hc Hx R. eapply f_dict; [exact R| |auto]. intros. eapply in_refs_dict; eauto.
    - eapply f_dict; [exact M3|now intros ? [<-|[]]|]. intros l d x b Hl Hc Hx R. eapply f_list; [exact R| |auto]. intros. eapply in_refs_dict; eauto.
    - eapply f_dict; [exact M4| |auto]. now intros ? [<-|[]].
    - eapply f_dict; [exact M5|now intros ? [<-|[]]|]. intros l d x b Hl Hc Hx R. eapply f_dict; [exact R| |auto]. intros. eapply in_refs_dict; eauto.
  Qed.
End Frame.

(** The objects of a log together with the events they show. *)
Definition pairs (h : heap) (tr : loc) (xs : list (loc * event)) : Prop :=
  event_objects h tr (map fst xs) /\ Forall (fun xe => ev_is h (HRef (fst xe)) (snd xe)) xs.

Lemma refs_of_list {B} (h : heap) (R : hv -> B -> Prop) xs bs : (forall v b, R v b -> exists l, v = HRef l) -> Forall2 R xs bs ->
  exists ps, xs = map HRef (map fst ps) /\ bs = map snd ps /\ Forall (fun p => R (HRef (fst p)) (snd p)) ps.
Proof.
  intros HR. induction 1 as [|v b xs bs Hv Hr (ps & -> & -> & F)]; [exists []; repeat split; constructor|].
  destruct (HR _ _ Hv) as [l ->]. exists ((l, b) :: ps). repeat split. constructor; [exact Hv|exact F].
Qed.
Lemma ev_ref h v e : ev_is h v e -> exists l, v = HRef l.
Proof. intros (l & ? & -> & _). eauto. Qed.
Lemma tr_ref h v e : tr_is h v e -> exists l, v = HRef l.
Proof. intros (l & ? & ? & -> & _). eauto. Qed.

Lemma tr_pairs h l t : tr_is h (HRef l) t -> exists xs, pairs h l xs /\ t_events t = map snd xs.
Proof.
  intros (l' & le & la & [= <-] & Hc & (x & xs & [= <-] & Hl & F) & _). destruct (refs_of_list h _ _ _ (ev_ref h) F) as (ps & -> & E & Fp).
  exists ps. split; [|exact E]. split; [|exact Fp]. exists le, (HRef la). auto.
Qed.
Lemma log_pairs h v L : log_is h v L -> exists ps : list (loc * list (loc * event)),
  objects h v (map fst ps) (map (fun p => map fst (snd p)) ps) /\ map t_events (l_traces L) = map (fun p => map snd (snd p)) ps /\ Forall (fun p => pairs h (fst p) (snd p)) ps.
Proof.
  intros (l & t & a & e & c & p & g & -> & Hc & (x & xs & [= <-] & Hl & F) & _). destruct (refs_of_list h _ _ _ (tr_ref h) F) as (ps & -> & E & Fp).
  assert (Hex : exists qs : list (loc * list (loc * event)), map fst qs = map fst ps /\ map (fun p => map snd (snd p)) qs = map t_events (map snd ps) /\ Forall (fun p => pairs h (fst p) (snd p)) qs).
  { clear -Fp. induction Fp as [|[l t] ps Hp Fp (qs & Q1 & Q2 & Q3)]; [exists []; repeat split; constructor|].
    destruct (tr_pairs _ _ _ Hp) as (xs & Hxs & Et). exists ((l, xs) :: qs). cbn. rewrite Q1, Q2. cbn in Et. rewrite Et. repeat split. constructor; [exact Hxs|exact Q3]. }
  destruct Hex as (qs & Q1 & Q2 & Q3). exists qs. split; [|split; [now rewrite E, Q2|exact Q3]]. rewrite Q1. split.
  - exists l, t, (HRef a), (HRef e), (HRef c), (HRef p), (HRef g). auto.
  - rewrite <- Q1. clear -Q3. induction Q3 as [|p qs [Hp _] Q3 IH]; cbn; constructor; auto.
Qed.

Lemma log_traces_run h v ts : trace_objects h v ts -> log_traces v h = (h, Ok (map HRef ts)).
Proof. intros (l & t & a & e & c & p & g & -> & H1 & H2). unfold log_traces, hbind, as_list, hbind, deref, peek. now rewrite H1, H2. Qed.
Lemma trace_events_run h t es : event_objects h t es -> trace_events (HRef t) h = (h, Ok (map HRef es)).
Proof. intros (e & a & H1 & H2). unfold trace_events, hbind, as_list, hbind, deref, peek. now rewrite H1, H2. Qed.
Lemma read_event_run h x e : ev_is h (HRef x) e -> read_event (HRef x) h = (h, Ok e).
Proof.
  intros (l & p & [= <-] & H1 & p' & d & [= <-] & H2 & H3). apply ent_atoms in H3. subst d.
  unfold read_event, event_payload, hbind, deref, peek. rewrite H1. cbn [ret]. unfold as_dict, hbind, deref, peek. rewrite H2. cbn [ret]. unfold lift_r. now rewrite flat_put.
Qed.

Lemma alloc_run o h : above h -> exists h', alloc o h = (h', Ok (next h)) /\ cells h' (next h) = Some o /\ above h' /\ next h' = S (next h) /\ (forall x, x < next h -> cells h' x = cells h x).
Proof.
  intro Ha. eexists. split; [reflexivity|]. cbn. unfold upd. destruct (Nat.eq_dec (next h) (next h)); [|lia]. split; [reflexivity|]. split; [|split; [reflexivity|]].
  - intros x Hx. cbn in *. destruct (Nat.eq_dec x (next h)); [lia|]. apply Ha. lia.
  - intros x Hx. destruct (Nat.eq_dec x (next h)); [lia|reflexivity].
Qed.

(** Selecting events into a new list. *)
Definition chosen (sel : event -> result bool) (xe : loc * event) : bool := match sel (snd xe) with Ok b => b | Err _ => false end.
Lemma filterM_chosen sel xs : match filterM sel (map snd xs) with Ok es => es = map snd (filter (chosen sel) xs) | Err _ => True end.
Proof.
  induction xs as [|[x e] xs IH]; cbn; [reflexivity|]. unfold chosen at 1. cbn. destruct (sel e) as [b|]; cbn; [|exact I].
  destruct (filterM sel (map snd xs)) as [es|]; cbn; [|exact I]. subst es. now destruct b.
Qed.

Lemma ev_other h h' le x e : cells h le <> None -> (forall p, cells h le <> Some (OEvent p)) -> (forall d, cells h le <> Some (ODict d)) -> (forall y, y <> le -> cells h' y = cells h y) ->
  ev_is h x e -> ev_is h' x e.
Proof.
  intros H0 H1 H2 Hs He. eapply (f_event h h' (fun y => y <> le) Hs); [exact He| |].
  - intros l Hl ->. destruct He as (l' & p & -> & Hc & _). destruct Hl as [->|[]]. exact (H1 _ Hc).
  - intros l p Hl Hp ->. destruct He as (l' & p' & -> & Hc & p'' & d & [= <-] & Hd & _). destruct Hl as [->|[]]. unfold payload_of in Hp. rewrite Hc in Hp. injection Hp as ->. exact (H2 _ Hd).
Qed.

Definition add_selected (sel : event -> result bool) (nt ev : hv) : H unit :=
  hbind (read_event ev) (fun e => hbind (lift_r (sel e)) (fun b => if b then trace_append nt ev else ret tt)).

Lemma select_loop sel nt le a : forall xs h kept, cells h nt = Some (OTrace (HRef le) a) -> cells h le = Some (OList kept) ->
  Forall (fun xe => ev_is h (HRef (fst xe)) (snd xe)) xs ->
  exists h' r, hiter (add_selected sel (HRef nt)) (map HRef (map fst xs)) h = (h', r) /\ next h' = next h /\ (forall y, y <> le -> cells h' y = cells h y) /\
    match filterM sel (map snd xs) with
    | Ok _ => r = Ok tt /\ cells h' le = Some (OList (kept ++ map HRef (map fst (filter (chosen sel) xs))))
    | Err e => r = Err e
    end.
Proof.
  induction xs as [|[x e] xs IH]; intros h kept Hn Hle Hf.
  - exists h, (Ok tt). cbn. rewrite app_nil_r. repeat split; auto.
  - inversion Hf as [|? ? Hx Hxs]; subst. cbn [fst snd] in Hx. cbn [map fst snd hiter filterM].
    unfold add_selected at 1. unfold hbind at 1 2. rewrite (read_event_run _ _ _ Hx). unfold lift_r, hbind at 1. cbn [filter]. unfold chosen at 1. cbn [snd].
    destruct (sel e) as [[]|er]; cbn [bind].
    + assert (Ea : trace_append (HRef nt) (HRef x) h = (mkHeap (upd (cells h) le (Some (OList (kept ++ [HRef x])))) (next h), Ok tt)).
      { unfold trace_append, hbind, deref, peek. rewrite Hn. unfold list_change, hbind, as_list, hbind, deref, peek. rewrite Hle. reflexivity. }
      rewrite Ea. set (h1 := mkHeap _ _).
      assert (Hs : forall y, y <> le -> cells h1 y = cells h y) by (intros y Hy; cbn; unfold upd; destruct (Nat.eq_dec y le); [contradiction|reflexivity]).
      assert (Hnl : nt <> le) by (intros ->; congruence).
      destruct (IH h1 (kept ++ [HRef x])) as (h' & r & E & N & S & M).
      * now rewrite Hs.
      * cbn. unfold upd. destruct (Nat.eq_dec le le); [reflexivity|contradiction].
      * eapply Forall_impl; [|exact Hxs]. intros [y ey] Hy. cbn in *. eapply (ev_other h h1 le); [congruence|congruence|congruence|exact Hs|exact Hy].
      * exists h', r. split; [exact E|]. split; [exact N|]. split; [intros y Hy; rewrite S by exact Hy; apply Hs; exact Hy|].
        destruct (filterM sel (map snd xs)); cbn [bind]; [|exact M]. destruct M as [-> M]. split; [reflexivity|]. rewrite M, <- app_assoc. reflexivity.
    + cbn [ret]. destruct (IH h kept Hn Hle Hxs) as (h' & r & E & N & S & M). exists h', r. split; [exact E|]. split; [exact N|]. split; [exact S|].
      destruct (filterM sel (map snd xs)); cbn [bind]; exact M.
    + eexists _, _. split; [reflexivity|]. repeat split; auto.
Qed.

Lemma new_trace_run h : above h -> exists h' nt le la, new_trace h = (h', Ok (HRef nt)) /\ above h' /\ old_kept h h' /\ next h <= nt < next h' /\ next h <= le < next h' /\ next h <= la < next h' /\
  cells h' nt = Some (OTrace (HRef le) (HRef la)) /\ cells h' le = Some (OList []) /\ cells h' la = Some (ODict []).
Proof.
  intro Ha. unfold new_trace.
  destruct (alloc_run (OList []) h Ha) as (h1 & E1 & C1 & A1 & N1 & S1). erewrite hbind_ok by exact E1.
  destruct (alloc_run (ODict []) h1 A1) as (h2 & E2 & C2 & A2 & N2 & S2). erewrite hbind_ok by exact E2.
  destruct (alloc_run (OTrace (HRef (next h)) (HRef (next h1))) h2 A2) as (h3 & E3 & C3 & A3 & N3 & S3). erewrite hbind_ok by exact E3. cbn [ret].
  exists h3, (next h2), (next h), (next h1). repeat split; auto; try lia.
  - intros x Hx. rewrite S3, S2, S1 by lia. reflexivity.
  - rewrite S3, S2 by lia. exact C1.
  - rewrite S3 by lia. exact C2.
Qed.

Lemma new_log_run h : above h -> exists h' l t a e c p g, new_log h = (h', Ok (HRef l)) /\ above h' /\ old_kept h h' /\ next h <= l < next h' /\ next h <= t < next h' /\
  cells h' l = Some (OLog (HRef t) (HRef a) (HRef e) (HRef c) (HRef p) (HRef g)) /\ cells h' t = Some (OList []) /\
  (forall x, In x [a; e; c; p; g] -> next h <= x < next h' /\ cells h' x = Some (ODict [])).
Proof.
  intro Ha. unfold new_log.
  destruct (alloc_run (ODict []) h Ha) as (h1 & E1 & C1 & A1 & N1 & S1). erewrite hbind_ok by exact E1.
  destruct (alloc_run (ODict []) h1 A1) as (h2 & E2 & C2 & A2 & N2 & S2). erewrite hbind_ok by exact E2.
  destruct (alloc_run (ODict []) h2 A2) as (h3 & E3 & C3 & A3 & N3 & S3). erewrite hbind_ok by exact E3.
  destruct (alloc_run (ODict []) h3 A3) as (h4 & E4 & C4 & A4 & N4 & S4). erewrite hbind_ok by exact E4.
  destruct (alloc_run (ODict []) h4 A4) as (h5 & E5 & C5 & A5 & N5 & S5). erewrite hbind_ok by exact E5.
  destruct (alloc_run (OList []) h5 A5) as (h6 & E6 & C6 & A6 & N6 & S6). erewrite hbind_ok by exact E6.
  destruct (alloc_run (OLog (HRef (next h5)) (HRef (next h4)) (HRef (next h3)) (HRef (next h2)) (HRef (next h1)) (HRef (next h))) h6 A6) as (h7 & E7 & C7 & A7 & N7 & S7). erewrite hbind_ok by exact E7. cbn [ret].
  exists h7, (next h6), (next h5), (next h4), (next h3), (next h2), (next h1), (next h).
  split; [reflexivity|]. split; [exact A7|]. split; [split; [lia|]; intros x Hx; rewrite S7, S6, S5, S4, S3, S2, S1 by lia; reflexivity|].
  split; [lia|]. split; [lia|]. split; [exact C7|]. split; [rewrite S7 by lia; exact C6|].
  intros x [<-|[<-|[<-|[<-|[<-|[]]]]]]; (split; [lia|]).
  - rewrite S7, S6 by lia; exact C5.
  - rewrite S7, S6, S5 by lia; exact C4.
  - rewrite S7, S6, S5, S4 by lia; exact C3.
  - rewrite S7, S6, S5, S4, S3 by lia; exact C2.
  - rewrite S7, S6, S5, S4, S3, S2 by lia; exact C1.
Qed.

Lemma log_append_run h l t a e c p g xs x : cells h l = Some (OLog (HRef t) a e c p g) -> cells h t = Some (OList xs) ->
  log_append (HRef l) x h = (mkHeap (upd (cells h) t (Some (OList (xs ++ [x])))) (next h), Ok tt).
Proof. intros H1 H2. unfold log_append, hbind, deref, peek. rewrite H1. unfold list_change, hbind, as_list, hbind, deref, peek. rewrite H2. reflexivity. Qed.

Lemma pairs_old h h' tr xs : old_kept h h' -> above h -> pairs h tr xs -> pairs h' tr xs.
Proof.
  intros [_ Hs] Ha [(e & a & H1 & H2) Hf].
  assert (Hlt : forall x o, cells h x = Some o -> x < next h) by (intros x o Hx; destruct (Nat.lt_ge_cases x (next h)) as [|Hge]; [assumption|rewrite (Ha x Hge) in Hx; discriminate]).
  split.
  - exists e, a. rewrite !Hs by eauto. auto.
  - eapply Forall_impl; [|exact Hf]. intros [x ev] Hx. cbn in *. eapply (f_event h h' (fun y => y < next h) Hs); [exact Hx| |].
    + intros l [<-|[]]. destruct Hx as (l' & p & [= <-] & Hc & _). eauto.
    + intros l p [<-|[]] Hp. destruct Hx as (l' & p' & [= <-] & Hc & p'' & d & [= <-] & Hd & _). unfold payload_of in Hp. rewrite Hc in Hp. injection Hp as <-. eauto.
Qed.

Definition new_tr (h : heap) (lo : loc) (nt : loc) (k : list (loc * event)) : Prop :=
  exists le la, lo <= nt /\ lo <= le /\ lo <= la /\ cells h nt = Some (OTrace (HRef le) (HRef la)) /\ cells h le = Some (OList (map HRef (map fst k))) /\ cells h la = Some (ODict []).
Definition nonempty {A} (l : list A) : bool := 0 <? length l.

Definition filter_trace (sel : event -> result bool) (nl tr : hv) : H unit :=
  hbind new_trace (fun nt => hbind (trace_events tr) (fun es => hbind (hiter (add_selected sel nt) es) (fun _ =>
  hbind (trace_events nt) (fun kept => if 0 <? length kept then log_append nl nt else ret tt)))).

Lemma filter_step sel l t a e c p g tr xs h acc : above h -> pairs h tr xs ->
  cells h l = Some (OLog (HRef t) a e c p g) -> cells h t = Some (OList acc) ->
  exists h' r, filter_trace sel (HRef l) (HRef tr) h = (h', r) /\ above h' /\ next h <= next h' /\ (forall y, y < next h -> y <> t -> cells h' y = cells h y) /\
    match filterM sel (map snd xs) with
    | Ok _ => r = Ok tt /\ let k := filter (chosen sel) xs in
        if nonempty k then exists nt, new_tr h' (next h) nt k /\ nt < next h' /\ cells h' t = Some (OList (acc ++ [HRef nt]))
        else cells h' t = Some (OList acc)
    | Err er => r = Err er
    end.
Proof.
  intros Ha Hp Hl Ht. assert (Htn : t < next h) by (destruct (Nat.lt_ge_cases t (next h)) as [|Hge]; [assumption|rewrite (Ha t Hge) in Ht; discriminate]).
  assert (Hln : l < next h) by (destruct (Nat.lt_ge_cases l (next h)) as [|Hge]; [assumption|rewrite (Ha l Hge) in Hl; discriminate]).
  unfold filter_trace. destruct (new_trace_run h Ha) as (h1 & nt & le & la & E1 & A1 & K1 & Bn & Bl & Ba & C1 & C2 & C3). erewrite hbind_ok by exact E1.
  pose proof (pairs_old _ _ _ _ K1 Ha Hp) as [Ho Hf]. erewrite hbind_ok by (apply trace_events_run; exact Ho).
  destruct (select_loop sel nt le (HRef la) xs h1 [] C1 C2 Hf) as (h2 & r & E2 & N2 & S2 & M). unfold hbind at 1. rewrite E2.
  assert (A2 : above h2). { intros y Hy. rewrite S2 by lia. apply A1. lia. }
  assert (Sold : forall y, y < next h -> cells h2 y = cells h y). { intros y Hy. rewrite S2 by lia. apply K1. exact Hy. }
  destruct (filterM sel (map snd xs)) as [es|er].
  2:{ subst r. exists h2, (Err er). split; [reflexivity|]. split; [exact A2|]. split; [lia|]. split; [auto|reflexivity]. }
  destruct M as [-> M]. cbn [app] in M.
  assert (Hnl : nt <> le) by (intros ->; congruence). assert (Hal : la <> le) by (intros ->; congruence).
  assert (Ho2 : event_objects h2 nt (map fst (filter (chosen sel) xs))). { exists le, (HRef la). split; [rewrite S2 by exact Hnl; exact C1|exact M]. }
  erewrite hbind_ok by (apply trace_events_run; exact Ho2). rewrite !map_length. unfold nonempty.
  destruct (0 <? length (filter (chosen sel) xs)).
  - rewrite (log_append_run h2 l t a e c p g acc) by (rewrite Sold by lia; assumption).
    eexists _, _. split; [reflexivity|]. cbn [next cells]. split; [|split; [lia|split; [|split; [reflexivity|]]]].
    + intros y Hy. cbn [next cells] in *. unfold upd. destruct (Nat.eq_dec y t); [lia|]. apply A2. lia.
    + intros y Hy Hyt. unfold upd. destruct (Nat.eq_dec y t); [contradiction|]. auto.
    + exists nt. split; [|split; [lia|]].
      * exists le, la. cbn [cells]. unfold upd. destruct (Nat.eq_dec nt t); [lia|]. destruct (Nat.eq_dec le t); [lia|]. destruct (Nat.eq_dec la t); [lia|].
        repeat split; try lia; [rewrite S2 by exact Hnl; exact C1|exact M|rewrite S2 by exact Hal; exact C3].
      * unfold upd. destruct (Nat.eq_dec t t); [reflexivity|contradiction].
  - exists h2, (Ok tt). split; [reflexivity|]. split; [exact A2|]. split; [lia|]. split; [auto|]. split; [reflexivity|]. rewrite Sold by lia. exact Ht.
Qed.

Definition kepts (sel : event -> result bool) (ps : list (loc * list (loc * event))) := filter nonempty (map (fun p => filter (chosen sel) (snd p)) ps).
Definition tevents (tev : list event) (t : trace) := t_events t = tev.

Lemma filter_traces_value sel trs ps : map t_events trs = map (fun p : loc * list (loc * event) => map snd (snd p)) ps ->
  match filter_events_traces sel trs with Ok trs' => trs' = map (fun k => trace_of_events (map snd k)) (kepts sel ps) | Err _ => True end.
Proof.
  revert ps. induction trs as [|t trs IH]; intros [|p ps] E; cbn in E; try discriminate; cbn; [reflexivity|]. injection E as E1 E2. rewrite E1.
  pose proof (filterM_chosen sel (snd p)) as Hc. destruct (filterM sel (map snd (snd p))) as [es|]; cbn; [|exact I]. subst es.
  specialize (IH _ E2). destruct (filter_events_traces sel trs) as [rs|]; cbn; [|exact I]. subst rs. unfold kepts. cbn [map filter].
  destruct (filter (chosen sel) (snd p)); reflexivity.
Qed.

Lemma filter_loop sel l t a e c p g h0 : above h0 -> forall ps trs h acc, above h -> old_kept h0 h -> map t_events trs = map (fun p => map snd (snd p)) ps -> Forall (fun p => pairs h0 (fst p) (snd p)) ps ->
  next h0 <= t -> cells h l = Some (OLog (HRef t) a e c p g) -> cells h t = Some (OList acc) ->
  exists h' r, hiter (filter_trace sel (HRef l)) (map HRef (map fst ps)) h = (h', r) /\ above h' /\ next h <= next h' /\ (forall y, y < next h -> y <> t -> cells h' y = cells h y) /\
    match filter_events_traces sel trs with
    | Ok _ => r = Ok tt /\ exists nts, Forall2 (new_tr h' (next h)) nts (kepts sel ps) /\ Forall (fun x => x < next h') nts /\ cells h' t = Some (OList (acc ++ map HRef nts))
    | Err er => r = Err er
    end.
Proof.
  intro Ha0. induction ps as [|[tr xs] ps IH]; intros trs h acc Ha Hk E Hp Ht0 Hl Ht.
  - destruct trs; [|discriminate]. exists h, (Ok tt). cbn. split; [reflexivity|]. split; [exact Ha|]. split; [lia|]. split; [auto|]. split; [reflexivity|]. exists []. cbn. rewrite app_nil_r. repeat split; auto; constructor.
  - destruct trs as [|tv trs]; [discriminate|]. cbn [map fst snd] in E. injection E as E1 E2. inversion Hp as [|? ? Hp1 Hp2]; subst. cbn [fst snd] in Hp1.
    assert (Htn : t < next h) by (destruct (Nat.lt_ge_cases t (next h)) as [|Hge]; [assumption|rewrite (Ha t Hge) in Ht; discriminate]).
    assert (Hln : l < next h) by (destruct (Nat.lt_ge_cases l (next h)) as [|Hge]; [assumption|rewrite (Ha l Hge) in Hl; discriminate]).
    assert (Hlt : l <> t) by (intros ->; congruence).
    destruct (filter_step sel l t a e c p g tr xs h acc Ha (pairs_old _ _ _ _ Hk Ha0 Hp1) Hl Ht) as (h1 & r1 & F1 & A1 & N1 & S1 & M1).
    cbn [map fst hiter filter_events_traces]. unfold hbind at 1. rewrite F1, E1. destruct (filterM sel (map snd xs)) as [es|er] eqn:Ef; cbn [bind].
    2:{ subst r1. exists h1, (Err er). repeat split; auto. }
    destruct M1 as [-> M1].
    assert (Hk1 : old_kept h0 h1). { destruct Hk as [K1 K2]. split; [lia|]. intros x Hx. rewrite S1 by lia. auto. }
    assert (Hl1 : cells h1 l = Some (OLog (HRef t) a e c p g)) by (rewrite S1 by assumption; exact Hl).
    assert (Hacc : exists acc1 nts1, cells h1 t = Some (OList acc1) /\ acc1 = acc ++ map HRef nts1 /\ Forall (fun x => x < next h1) nts1 /\ Forall2 (new_tr h1 (next h)) nts1 (filter nonempty [filter (chosen sel) xs])).
    { cbn [filter]. cbn zeta in M1. destruct (nonempty (filter (chosen sel) xs)).
      - destruct M1 as (nt & M2 & M3 & M4). exists (acc ++ [HRef nt]), [nt]. repeat split; auto.
      - exists acc, []. rewrite app_nil_r. repeat split; auto. }
    destruct Hacc as (acc1 & nts1 & Hc1 & -> & Hn1 & Hf1).
    destruct (IH trs h1 _ A1 Hk1 E2 Hp2 Ht0 Hl1 Hc1) as (h2 & r2 & F2 & A2 & N2 & S2 & M2).
    exists h2, r2. split; [exact F2|]. split; [exact A2|]. split; [lia|]. split; [intros y Hy Hyt; rewrite S2 by (try assumption; lia); auto|].
    destruct (filter_events_traces sel trs) as [rs|er]; cbn [bind]; [|exact M2]. destruct M2 as (-> & nts2 & Q1 & Q2 & Q3). split; [reflexivity|].
    exists (nts1 ++ nts2). split; [|split].
    + unfold kepts. change (map (fun p0 : loc * list (loc * event) => filter (chosen sel) (snd p0)) ((tr, xs) :: ps)) with ([filter (chosen sel) xs] ++ map (fun p0 : loc * list (loc * event) => filter (chosen sel) (snd p0)) ps).
      rewrite filter_app. apply Forall2_app.
      * eapply Forall2_imp; [exact Hf1|]. intros nt k Hin (le & la & B1 & B2 & B3 & B4 & B5 & B6). exists le, la.
        assert (Hlt' : forall x o, cells h1 x = Some o -> x < next h1) by (intros x o Hx; destruct (Nat.lt_ge_cases x (next h1)) as [|Hge]; [assumption|rewrite (A1 x Hge) in Hx; discriminate]).
        rewrite !S2 by (eauto; lia). repeat split; auto.
      * eapply Forall2_imp; [exact Q1|]. intros nt k Hin (le & la & B1 & B2 & B3 & B4). exists le, la. repeat split; try lia; tauto.
    + apply Forall_app. split; [eapply Forall_impl; [|exact Hn1]; cbn; intros; lia|exact Q2].
    + rewrite Q3, map_app, app_assoc. reflexivity.
Qed.

Lemma filter_events_proof sel h lg L : closed h -> shows h lg L ->
  exists (ps : list (loc * list (loc * event))) h' r, objects h lg (map fst ps) (map (fun p => map fst (snd p)) ps) /\ map t_events (l_traces L) = map (fun p => map snd (snd p)) ps /\
    h_filter_events sel lg h = (h', r) /\ old_kept h h' /\
    match filter_events sel L with
    | Ok L' => exists l' ts', r = Ok (HRef l') /\ next h <= l' /\ shows h' (HRef l') L' /\ Forall (fun x => next h <= x) ts' /\
        objects h' (HRef l') ts' (map (map fst) (filter (fun k => 0 <? length k) (map (fun p => filter (chosen sel) (snd p)) ps)))
    | Err e => r = Err e
    end.
Proof.
  intros [Ha0 _] Hs. apply shows_log in Hs. destruct (log_pairs _ _ _ Hs) as (ps & Ho & Et & Hp).
  assert (Ha : above h) by exact Ha0.
  destruct (new_log_run h Ha) as (h1 & l & t & a & e & c & p & g & E1 & A1 & K1 & B1 & B2 & C1 & C2 & C3).
  assert (Hlg : trace_objects h1 lg (map fst ps)).
  { destruct Ho as [(l0 & t0 & a0 & e0 & c0 & p0 & g0 & -> & O1 & O2) _].
    assert (Hlt : forall x o, cells h x = Some o -> x < next h) by (intros x o Hx; destruct (Nat.lt_ge_cases x (next h)) as [|Hge]; [assumption|rewrite (Ha x Hge) in Hx; discriminate]).
    exists l0, t0, a0, e0, c0, p0, g0. destruct K1 as [_ K1]. rewrite !K1 by eauto. auto. }
  destruct (filter_loop sel l t (HRef a) (HRef e) (HRef c) (HRef p) (HRef g) h Ha ps (l_traces L) h1 [] A1 K1 Et Hp (proj1 B2) C1 C2) as (h2 & r & E2 & A2 & N2 & S2 & M).
  exists ps, h2. assert (Erun : h_filter_events sel lg h = match r with Ok _ => (h2, Ok (HRef l)) | Err er => (h2, Err er) end).
  { unfold h_filter_events. erewrite hbind_ok by exact E1. erewrite hbind_ok by (apply log_traces_run; exact Hlg).
    unfold hbind at 1. unfold filter_trace, add_selected in E2. rewrite E2. destruct r; reflexivity. }
  assert (Hold : old_kept h h2). { destruct K1 as [K1 K2]. split; [lia|]. intros x Hx. rewrite S2 by lia. auto. }
  unfold filter_events. pose proof (filter_traces_value sel _ _ Et) as Hv. destruct (filter_events_traces sel (l_traces L)) as [rs|er]; cbn [bind].
  2:{ subst r. exists (Err er). split; [exact Ho|]. split; [exact Et|]. split; [exact Erun|]. split; [exact Hold|reflexivity]. }
  destruct M as (-> & nts & M1 & M2 & M3). exists (Ok (HRef l)). split; [exact Ho|]. split; [exact Et|]. split; [exact Erun|]. split; [exact Hold|].
  exists l, nts. split; [reflexivity|]. split; [lia|]. cbn [app] in M3.
  assert (Hlt : l <> t) by (intros ->; congruence).
  assert (Hl2 : cells h2 l = Some (OLog (HRef t) (HRef a) (HRef e) (HRef c) (HRef p) (HRef g))) by (rewrite S2 by (try assumption; lia); exact C1).
  split; [|split].
  - apply shows_log. exists l, t, a, e, c, p, g. split; [reflexivity|]. split; [exact Hl2|]. cbn [log_of_traces l_traces].
    assert (Hempty : forall B (R : hv -> B -> Prop) x, In x [a; e; c; p; g] -> dict_is h2 R (HRef x) []).
    { intros B R x Hx. exists x, []. split; [reflexivity|]. split; [|constructor]. destruct (C3 x Hx) as [X1 X2]. rewrite S2; [exact X2|lia|]. intros ->. congruence. }
    split; [|repeat split; apply Hempty; cbn; tauto].
    exists t, (map HRef nts). split; [reflexivity|]. split; [exact M3|]. subst rs. fold (kepts sel ps) in M1.
    assert (Hin : Forall (fun k => Forall (fun xe => ev_is h2 (HRef (fst xe)) (snd xe)) k) (kepts sel ps)).
    { apply Forall_forall. intros k Hk. apply filter_In in Hk as [Hk _]. apply in_map_iff in Hk as (q & <- & Hq). apply Forall_forall. intros xe Hxe. apply filter_In in Hxe as [Hxe _].
      assert (Hpq : pairs h2 (fst q) (snd q)) by (eapply pairs_old; [exact Hold|exact Ha|]; exact (proj1 (Forall_forall _ _) Hp q Hq)).
      exact (proj1 (Forall_forall _ _) (proj2 Hpq) xe Hxe). }
    clear -M1 Hin. induction M1 as [|nt k nts ks (le & la & _ & _ & _ & X1 & X2 & X3) M1 IH]; cbn; [constructor|]. inversion Hin as [|? ? Hk Hks]; subst. constructor; [|auto].
    exists nt, le, la. split; [reflexivity|]. split; [exact X1|]. split; [|exists la, []; repeat split; auto; constructor].
    exists le, (map HRef (map fst k)). split; [reflexivity|]. split; [exact X2|]. cbn. clear -Hk. induction Hk as [|xe k Hx Hk IH]; cbn; constructor; auto.
  - assert (Hb : next h <= next h1) by apply K1. clear -M1 Hb. induction M1 as [|nt k nts ks (le & la & X & _) M1 IH]; constructor; [lia|auto].
  - split.
    + exists l, t, (HRef a), (HRef e), (HRef c), (HRef p), (HRef g). auto.
    + fold (kepts sel ps). clear -M1. change (filter _ (map _ ps)) with (kepts sel ps). induction M1 as [|nt k nts ks (le & la & _ & _ & _ & X1 & X2 & X3) M1 IH]; cbn; constructor; [|auto]. exists le, (HRef la). auto.
Qed.

Lemma cell_lt h x o : above h -> cells h x = Some o -> x < next h.
Proof. intros Ha Hx. destruct (Nat.lt_ge_cases x (next h)) as [|Hge]; [assumption|rewrite (Ha x Hge) in Hx; discriminate]. Qed.

(** Keeping traces. *)
Lemma keep_loop (P : nat -> bool) l t a e c p g h0 : above h0 -> forall (ps : list (loc * list (loc * event))) h acc, above h -> old_kept h0 h -> Forall (fun p => pairs h0 (fst p) (snd p)) ps ->
  next h0 <= t -> cells h l = Some (OLog (HRef t) a e c p g) -> cells h t = Some (OList acc) ->
  exists h', hiter (fun tr => hbind (trace_events tr) (fun es => if P (length es) then log_append (HRef l) tr else ret tt)) (map HRef (map fst ps)) h = (h', Ok tt) /\
    above h' /\ next h' = next h /\ (forall y, y <> t -> cells h' y = cells h y) /\ cells h' t = Some (OList (acc ++ map HRef (map fst (filter (fun p => P (length (snd p))) ps)))).
Proof.
  intro Ha0. induction ps as [|[tr xs] ps IH]; intros h acc Ha Hk Hp Ht0 Hl Ht.
  - exists h. cbn. rewrite app_nil_r. repeat split; auto.
  - inversion Hp as [|? ? Hp1 Hp2]; subst. cbn [fst snd] in Hp1. pose proof (pairs_old _ _ _ _ Hk Ha0 Hp1) as [Ho _].
    cbn [map fst hiter filter snd]. unfold hbind at 1. erewrite hbind_ok by (apply trace_events_run; exact Ho). rewrite !map_length.
    destruct (P (length xs)).
    + rewrite (log_append_run h l t a e c p g acc _ Hl Ht). set (h1 := mkHeap _ _).
      assert (Hlt : l <> t) by (intros ->; congruence). pose proof (cell_lt _ _ _ Ha Ht) as Htn.
      assert (Hs : forall y, y <> t -> cells h1 y = cells h y) by (intros y Hy; cbn; unfold upd; destruct (Nat.eq_dec y t); [contradiction|reflexivity]).
      destruct (IH h1 (acc ++ [HRef tr])) as (h' & E & A & N & S & C).
      * intros y Hy. cbn [next h1] in Hy. rewrite Hs by lia. apply Ha. exact Hy.
      * destruct Hk as [K1 K2]. split; [exact K1|]. intros x Hx. rewrite Hs by lia. auto.
      * exact Hp2.
      * exact Ht0.
      * rewrite Hs by exact Hlt. exact Hl.
      * cbn. unfold upd. destruct (Nat.eq_dec t t); [reflexivity|contradiction].
      * exists h'. split; [exact E|]. split; [exact A|]. split; [exact N|]. split; [intros y Hy; rewrite S by exact Hy; apply Hs; exact Hy|]. rewrite C, <- app_assoc. reflexivity.
    + cbn [ret]. apply IH; assumption.
Qed.

Lemma tr_old h h' v t : old_kept h h' -> above h -> tr_is h v t -> tr_is h' v t.
Proof.
  intros [_ Hs] Ha (l & le & la & -> & Hc & Hl & Hd). exists l, le, la. split; [reflexivity|]. split; [rewrite Hs by (eapply cell_lt; eauto); exact Hc|]. split.
  - eapply (f_list h h' (fun y => y < next h) Hs); [exact Hl| |].
    + intros x [<-|[]]. destruct Hl as (? & ? & [= <-] & ? & _). eapply cell_lt; eauto.
    + intros x d ev e _ _ _ He. eapply (f_event h h' (fun y => y < next h) Hs); [exact He| |].
      * intros y Hy. destruct He as (y' & p & -> & Hc' & _). destruct Hy as [<-|[]]. eapply cell_lt; eauto.
      * intros y p Hy Hp. destruct He as (y' & p' & -> & Hc' & p'' & dd & [= <-] & Hd' & _). destruct Hy as [<-|[]]. unfold payload_of in Hp. rewrite Hc' in Hp. injection Hp as <-. eapply cell_lt; eauto.
  - eapply (f_dict h h' (fun y => y < next h) Hs); [exact Hd| |auto]. intros x [<-|[]]. destruct Hd as (? & ? & [= <-] & ? & _). eapply cell_lt; eauto.
Qed.

Lemma remove_empty_traces_proof m h lg L : closed h -> shows h lg L ->
  exists ts ess h' l', objects h lg ts ess /\ h_remove_empty_traces m lg h = (h', Ok (HRef l')) /\ old_kept h h' /\ next h <= l' /\
    shows h' (HRef l') (remove_empty_traces L m) /\
    trace_objects h' (HRef l') (map fst (filter (fun te => (m <? Z.of_nat (length (snd te)))%Z) (combine ts ess))).
Proof.
  intros [Ha0 _] Hs. apply shows_log in Hs. destruct (log_pairs _ _ _ Hs) as (ps & Ho & Et & Hp). assert (Ha : above h) by exact Ha0.
  destruct (new_log_run h Ha) as (h1 & l & t & a & e & c & p & g & E1 & A1 & K1 & B1 & B2 & C1 & C2 & C3).
  assert (Hlg : trace_objects h1 lg (map fst ps)).
  { destruct Ho as [(l0 & t0 & a0 & e0 & c0 & p0 & g0 & -> & O1 & O2) _]. exists l0, t0, a0, e0, c0, p0, g0. destruct K1 as [_ K1]. rewrite !K1 by (eapply cell_lt; eauto). auto. }
  destruct (keep_loop (fun n => (m <? Z.of_nat n)%Z) l t (HRef a) (HRef e) (HRef c) (HRef p) (HRef g) h Ha ps h1 [] A1 K1 Hp (proj1 B2) C1 C2) as (h2 & E2 & A2 & N2 & S2 & M). cbn [app] in M.
  exists (map fst ps), (map (fun p => map fst (snd p)) ps), h2, l. split; [exact Ho|]. split.
  { unfold h_remove_empty_traces. erewrite hbind_ok by exact E1. erewrite hbind_ok by (apply log_traces_run; exact Hlg). erewrite hbind_ok by exact E2. reflexivity. }
  assert (Hold : old_kept h h2). { destruct K1 as [K1 K2]. split; [lia|]. intros x Hx. rewrite S2 by lia. auto. }
  split; [exact Hold|]. split; [lia|].
  assert (Hlt : l <> t) by (intros ->; congruence).
  assert (Hl2 : cells h2 l = Some (OLog (HRef t) (HRef a) (HRef e) (HRef c) (HRef p) (HRef g))) by (rewrite S2 by assumption; exact C1).
  split.
  - apply shows_log. exists l, t, a, e, c, p, g. split; [reflexivity|]. split; [exact Hl2|]. unfold remove_empty_traces, filter_traces. cbn [log_of_traces l_traces].
    assert (Hempty : forall B (R : hv -> B -> Prop) x, In x [a; e; c; p; g] -> dict_is h2 R (HRef x) []).
    { intros B R x Hx. exists x, []. split; [reflexivity|]. split; [|constructor]. destruct (C3 x Hx) as [X1 X2]. rewrite S2; [exact X2|]. intros ->. congruence. }
    split; [|repeat split; apply Hempty; cbn; tauto].
    eexists t, _. split; [reflexivity|]. split; [exact M|].
    destruct Hs as (l0 & t0 & a0 & e0 & c0 & p0 & g0 & -> & O1 & (x & xs & [= <-] & O2 & F) & _).
    destruct Ho as [(l0' & t0' & a0' & e0' & c0' & p0' & g0' & [= <-] & P1 & P2) _]. rewrite O1 in P1. injection P1 as <- _ _ _ _ _. rewrite O2 in P2. injection P2 as ->.
    clear -F Et Hold Ha. revert Et F. generalize (l_traces L). induction ps as [|[tr xs] ps IH]; intros [|tv trs] Et F; cbn in *; try discriminate; inversion F as [|? ? ? ? Ft Fr]; subst; [constructor|].
    injection Et as Et1 Et2. specialize (IH _ Et2 Fr). assert (El : length (t_events tv) = length xs) by (rewrite Et1; apply map_length). rewrite El.
    destruct (m <? Z.of_nat (length xs))%Z; cbn; [constructor|]; [eapply tr_old; eauto|exact IH|exact IH].
  - exists l, t, (HRef a), (HRef e), (HRef c), (HRef p), (HRef g). split; [reflexivity|]. split; [exact Hl2|]. rewrite M. do 3 f_equal.
    clear. induction ps as [|[tr xs] ps IH]; [reflexivity|]. cbn [map combine filter fst snd]. rewrite map_length. destruct (m <? Z.of_nat (length xs))%Z; cbn; [f_equal|]; exact IH.
Qed.

(** Changing events in place. *)
Lemma change_event_run mut h x p e : payload_of h x p -> dict_is h atom_is (HRef p) e ->
  change_event mut (HRef x) h = match mut e with Ok e' => (mkHeap (upd (cells h) p (Some (ODict (put_payload e')))) (next h), Ok tt) | Err er => (h, Err er) end.
Proof.
  intros H1 (p' & d & [= <-] & H2 & H3). apply ent_atoms in H3. subst d. unfold payload_of in H1.
  unfold change_event, event_payload. unfold hbind at 1 2, deref, peek. rewrite H1. cbn [ret]. unfold as_dict, hbind at 1 2, deref, peek. rewrite H2. cbn [ret].
  unfold lift_r, hbind at 1. rewrite flat_put. unfold hbind. destruct (mut e); reflexivity.
Qed.

Definition inj_payload (h : heap) (xs : list loc) : Prop := forall x y p, In x xs -> In y xs -> payload_of h x p -> payload_of h y p -> x = y.
Definition is_payload (h : heap) (xs : list loc) (y : loc) : Prop := exists x, In x xs /\ payload_of h x y.

Lemma ev_payload h x e : ev_is h (HRef x) e -> exists p, payload_of h x p /\ dict_is h atom_is (HRef p) e.
Proof. intros (l & p & [= <-] & H1 & H2). eauto. Qed.

Lemma change_loop mut : forall (xs : list (loc * event)) h, Forall (fun xe => ev_is h (HRef (fst xe)) (snd xe)) xs -> NoDup (map fst xs) -> inj_payload h (map fst xs) ->
  exists h' r, hiter (change_event mut) (map HRef (map fst xs)) h = (h', r) /\ next h' = next h /\ (forall y, ~ is_payload h (map fst xs) y -> cells h' y = cells h y) /\
    match mapM mut (map snd xs) with Ok es => r = Ok tt /\ Forall2 (fun x e => ev_is h' (HRef x) e) (map fst xs) es | Err er => r = Err er end.
Proof.
  induction xs as [|[x e] xs IH]; intros h Hf Hn Hi.
  - exists h, (Ok tt). cbn. repeat split; auto.
  - inversion Hf as [|? ? Hx Hxs]; subst. inversion Hn as [|? ? Hnx Hnxs]; subst. cbn [fst snd map] in *. destruct (ev_payload _ _ _ Hx) as (p & Hp & Hd).
    cbn [hiter mapM]. unfold hbind at 1. rewrite (change_event_run mut h x p e Hp Hd). destruct (mut e) as [e'|er]; cbn [bind].
    2:{ exists h, (Err er). repeat split; auto. }
    set (h1 := mkHeap _ _). assert (Hs : forall y, y <> p -> cells h1 y = cells h y) by (intros y Hy; cbn; unfold upd; destruct (Nat.eq_dec y p); [contradiction|reflexivity]).
    assert (Hev : forall y q, cells h y = Some (OEvent q) -> y <> p). { intros y q Hy ->. destruct Hd as (? & ? & [= <-] & Hd & _). congruence. }
    assert (Hpay : forall y q, payload_of h1 y q <-> payload_of h y q).
    { intros y q. unfold payload_of. destruct (Nat.eq_dec y p) as [->|Hy]; [|now rewrite Hs by exact Hy]. destruct Hd as (? & d & [= <-] & Hd & _). cbn. unfold upd. destruct (Nat.eq_dec p p); [|contradiction]. rewrite Hd. split; discriminate. }
    destruct (IH h1) as (h' & r & E & N & S & M).
    + apply Forall_forall. intros [y ey] Hy. pose proof (proj1 (Forall_forall _ _) Hxs _ Hy) as He. cbn in *. eapply (f_event h h1 (fun z => z <> p) Hs); [exact He| |].
      * intros z [<-|[]]. destruct He as (? & q & [= <-] & Hc & _). eauto.
      * intros z q [<-|[]] Hq ->. apply Hnx. rewrite (Hi x y p); [apply in_map_iff; exists (y, ey); auto|now left|right; apply in_map_iff; exists (y, ey); auto|exact Hp|exact Hq].
    + exact Hnxs.
    + intros a b q Ha Hb H1 H2. apply (proj1 (Hpay _ _)) in H1. apply (proj1 (Hpay _ _)) in H2. eapply Hi; eauto; right; assumption.
    + exists h', r. split; [exact E|]. split; [exact N|]. split.
      * intros y Hy. rewrite S. { apply Hs. intros ->. apply Hy. exists x. split; [now left|exact Hp]. } intros (z & Hz & Hzp). apply Hy. exists z. split; [now right|]. now apply Hpay.
      * destruct (mapM mut (map snd xs)) as [es|er]; cbn [bind]; [|exact M]. destruct M as [-> M]. split; [reflexivity|]. constructor; [|exact M].
        assert (Hnp : forall y, y = x \/ y = p -> ~ is_payload h1 (map fst xs) y).
        { intros y [->| ->] (z & Hz & Hzp); apply (proj1 (Hpay _ _)) in Hzp.
          - pose proof (proj1 (Forall_forall _ _) Hxs) as Hall. apply in_map_iff in Hz as ([z' ez] & <- & Hz). specialize (Hall _ Hz). cbn in *. destruct Hall as (? & q & [= <-] & Hc & ? & d & [= <-] & Hdd & _). unfold payload_of in Hzp, Hp. rewrite Hc in Hzp. injection Hzp as ->. congruence.
          - apply Hnx. rewrite (Hi x z p); [exact Hz|now left|now right|exact Hp|exact Hzp]. }
        exists x, p. split; [reflexivity|]. split; [rewrite S by (apply Hnp; auto); rewrite Hs by eauto; exact Hp|].
        exists p, (put_payload e'). split; [reflexivity|]. split; [|now apply ent_atoms]. rewrite S by (apply Hnp; auto). cbn. unfold upd. destruct (Nat.eq_dec p p); [reflexivity|contradiction].
Qed.

Lemma NoDup_app_l {A} (l m : list A) : NoDup (l ++ m) -> NoDup l.
Proof. induction l; cbn; intro Hn; [constructor|]. inversion Hn; subst. constructor; [|auto]. intro Hin. apply H1. apply in_or_app. auto. Qed.
Lemma NoDup_app_r {A} (l m : list A) : NoDup (l ++ m) -> NoDup m.
Proof. induction l; cbn; intro Hn; [exact Hn|]. inversion Hn; subst. auto. Qed.
Lemma NoDup_app_disj {A} (l m : list A) x : NoDup (l ++ m) -> In x l -> In x m -> False.
Proof. induction l; cbn; intros Hn Hl Hm; [exact Hl|]. inversion Hn; subst. destruct Hl as [->|Hl]; [apply H1; apply in_or_app; auto|eauto]. Qed.

(** Events' cells when only payloads of other events change. *)
Lemma payload_cells h h' xs : (forall x, In x xs -> exists e, ev_is h (HRef x) e) -> (forall y, ~ is_payload h xs y -> cells h' y = cells h y) ->
  forall y, (forall d, cells h y <> Some (ODict d)) -> cells h' y = cells h y.
Proof.
  intros Hx Hs y Hy. apply Hs. intros (x & Hin & Hp). destruct (Hx x Hin) as [e He]. destruct He as (? & p & [= <-] & Hc & ? & d & [= <-] & Hd & _). unfold payload_of in Hp. rewrite Hc in Hp. injection Hp as <-. exact (Hy d Hd).
Qed.

Lemma change_traces mut : forall (ps : list (loc * list (loc * event))) h, Forall (fun p => pairs h (fst p) (snd p)) ps ->
  let all := concat (map (fun p => map fst (snd p)) ps) in NoDup all -> inj_payload h all ->
  exists h' r, hiter (fun tr => hbind (trace_events tr) (fun es => hiter (change_event mut) es)) (map HRef (map fst ps)) h = (h', r) /\ next h' = next h /\
    (forall y, ~ is_payload h all y -> cells h' y = cells h y) /\
    match mapM (fun p => mapM mut (map snd (snd p))) ps with
    | Ok ess => r = Ok tt /\ Forall2 (fun p es => Forall2 (fun x e => ev_is h' (HRef x) e) (map fst (snd p)) es) ps ess
    | Err er => r = Err er end.
Proof.
  induction ps as [|[tr xs] ps IH]; intros h Hf all Hn Hi.
  - exists h, (Ok tt). cbn. repeat split; auto.
  - inversion Hf as [|? ? [Ho Hx] Hps]; subst. cbn [fst snd] in Ho, Hx. subst all. cbn [map fst snd concat] in *.
    set (rest := concat (map (fun p => map fst (snd p)) ps)) in *.
    cbn [hiter mapM snd]. unfold hbind at 1. erewrite hbind_ok by (apply trace_events_run; exact Ho).
    destruct (change_loop mut xs h Hx (NoDup_app_l _ _ Hn)) as (h1 & r1 & E1 & N1 & S1 & M1); [intros a b q Ha Hb; apply Hi; apply in_or_app; auto|].
    rewrite E1. destruct (mapM mut (map snd xs)) as [es|er]; cbn [bind].
    2:{ subst r1. exists h1, (Err er). split; [reflexivity|]. split; [exact N1|]. split; [|reflexivity]. intros y Hy. apply S1. intros (x & Hx' & Hp). apply Hy. exists x. split; [apply in_or_app; auto|exact Hp]. }
    destruct M1 as [-> M1].
    assert (Hexx : forall x, In x (map fst xs) -> exists e, ev_is h (HRef x) e). { intros x Hin. apply in_map_iff in Hin as ([x' e] & <- & Hin). exists e. exact (proj1 (Forall_forall _ _) Hx _ Hin). }
    pose proof (payload_cells h h1 (map fst xs) Hexx S1) as Hnd.
    assert (Hpay1 : forall y q, payload_of h1 y q <-> payload_of h y q).
    { intros y q. unfold payload_of. destruct (cells h y) as [o|] eqn:Ey.
      - destruct o; try (rewrite Hnd by congruence; rewrite Ey; tauto). split; [|discriminate]. intro Hc.
        exfalso. (* y is a payload dict or unchanged *)
        assert (Hdec : (exists x, In x (map fst xs) /\ payload_of h x y) \/ ~ is_payload h (map fst xs) y).
        { clear -Hexx. induction (map fst xs) as [|x l IHl]; [right; intros (? & [] & _)|]. destruct (Hexx x (or_introl eq_refl)) as [e He]. destruct (ev_payload _ _ _ He) as (p & Hp & _).
          destruct (Nat.eq_dec y p) as [->|Hyp]; [left; exists x; split; [now left|exact Hp]|]. destruct IHl as [(z & Hz & Hzp)|Hno]; [intros; apply Hexx; now right|left; exists z; split; [now right|exact Hzp]|].
          right. intros (z & [<-|Hz] & Hzp); [unfold payload_of in *; congruence|]. apply Hno. exists z. auto. }
        destruct Hdec as [(x & Hx' & Hxp)|Hno]; [|rewrite S1 in Hc by exact Hno; congruence].
        (* x shows a dict in h1 as well *)
        clear -M1 Hx' Hxp Hc S1 Hnd. assert (Hxe : exists e', ev_is h1 (HRef x) e').
        { clear -M1 Hx'. induction M1; [destruct Hx'|]. destruct Hx' as [->|Hx']; eauto. }
        destruct Hxe as [e' (? & p & [= <-] & Hce & ? & d & [= <-] & Hd & _)]. unfold payload_of in Hxp. rewrite Hnd in Hce by congruence. rewrite Hxp in Hce. injection Hce as <-. congruence.
      - rewrite Hnd by congruence. rewrite Ey. tauto. }
    assert (Hdisj : forall x q, In x rest -> payload_of h x q -> ~ is_payload h (map fst xs) q).
    { intros x q Hx' Hq (z & Hz & Hzq). assert (x = z) by (eapply Hi; eauto; apply in_or_app; auto). subst z. eapply NoDup_app_disj; eauto. }
    assert (Hps1 : Forall (fun p => pairs h1 (fst p) (snd p)) ps).
    { apply Forall_forall. intros q Hq. pose proof (proj1 (Forall_forall _ _) Hps _ Hq) as [(le & a & O1 & O2) Hev]. split.
      - exists le, a. rewrite !Hnd by congruence. auto.
      - apply Forall_forall. intros xe Hxe. pose proof (proj1 (Forall_forall _ _) Hev _ Hxe) as He. cbn in He. destruct He as (? & p & [= <-] & Hc & ? & d & [= <-] & Hd & Hent).
        exists (fst xe), p. split; [reflexivity|]. split; [rewrite Hnd by congruence; exact Hc|]. exists p, d. split; [reflexivity|]. split; [|exact Hent]. rewrite S1; [exact Hd|].
        eapply Hdisj; [|exact Hc]. apply in_concat. exists (map fst (snd q)). split; [apply in_map_iff; eauto|apply in_map; exact Hxe]. }
    destruct (IH h1 Hps1 (NoDup_app_r _ _ Hn)) as (h2 & r2 & E2 & N2 & S2 & M2).
    { intros a b q Ha Hb H1 H2. apply (proj1 (Hpay1 _ _)) in H1. apply (proj1 (Hpay1 _ _)) in H2. eapply Hi; eauto; apply in_or_app; auto. }
    fold rest in S2. exists h2, r2. split; [exact E2|]. split; [lia|]. split.
    + intros y Hy. rewrite S2, S1; [reflexivity| |].
      * intros (z & Hz & Hzp). apply Hy. exists z. split; [apply in_or_app; auto|exact Hzp].
      * intros (z & Hz & Hzp). apply Hy. exists z. split; [apply in_or_app; auto|now apply Hpay1].
    + destruct (mapM (fun p => mapM mut (map snd (snd p))) ps) as [ess|er]; cbn [bind]; [|exact M2]. destruct M2 as [-> M2]. split; [reflexivity|]. constructor; [|exact M2]. cbn [snd].
      eapply Forall2_imp; [exact M1|]. intros x e Hin He. eapply (f_event h1 h2 (fun z => ~ is_payload h1 rest z) S2); [exact He| |].
      * intros z [<-|[]] (w & Hw & Hwp). destruct He as (? & p & [= <-] & Hc & _).
        assert (Hwe : exists e', ev_is h1 (HRef w) e'). { unfold rest in Hw. apply in_concat in Hw as (l & Hl & Hw). apply in_map_iff in Hl as (q & <- & Hq). apply in_map_iff in Hw as (xe & <- & Hxe). exists (snd xe). exact (proj1 (Forall_forall _ _) (proj2 (proj1 (Forall_forall _ _) Hps1 _ Hq)) _ Hxe). }
        destruct Hwe as [e' (? & p' & [= <-] & Hc' & ? & d & [= <-] & Hd & _)]. unfold payload_of in Hwp. rewrite Hc' in Hwp. injection Hwp as ->. congruence.
      * intros z q [<-|[]] Hq (w & Hw & Hwp). apply (proj1 (Hpay1 _ _)) in Hq. apply (proj1 (Hpay1 _ _)) in Hwp. assert (x = w) by (eapply Hi; eauto; apply in_or_app; auto). subst w. eapply NoDup_app_disj; eauto.
Qed.

Lemma map_HRef_inj xs ys : map HRef xs = map HRef ys -> xs = ys.
Proof. revert ys. induction xs as [|x xs IH]; intros [|y ys] E; cbn in E; try discriminate; [reflexivity|]. injection E as -> E. f_equal. auto. Qed.
Lemma objects_fun h v ts ess ts' ess' : objects h v ts ess -> objects h v ts' ess' -> ts = ts' /\ ess = ess'.
Proof.
  intros [(l & t & a & e & c & p & g & -> & O1 & O2) F] [(l' & t' & a' & e' & c' & p' & g' & [= <-] & O1' & O2') F'].
  rewrite O1 in O1'. injection O1' as <- _ _ _ _ _. rewrite O2 in O2'. injection O2' as E. apply map_HRef_inj in E. subst ts'. split; [reflexivity|].
  clear -F F'. revert ess' F'. induction F as [|tr es ts ess (le & a & H1 & H2) F IH]; intros ess' F'; inversion F' as [|? es' ? ? (le' & a' & H1' & H2') F'']; subst; [reflexivity|].
  rewrite H1 in H1'. injection H1' as <- _. rewrite H2 in H2'. injection H2' as E. apply map_HRef_inj in E. subst. f_equal. auto.
Qed.

Lemma preprocess_value mut (ps : list (loc * list (loc * event))) trs : map t_events trs = map (fun p => map snd (snd p)) ps ->
  mapM (fun t => bind (mapM mut (t_events t)) (fun es => Ok (mkTrace es (t_attrs t)))) trs =
  bind (mapM (fun p => mapM mut (map snd (snd p))) ps) (fun ess => Ok (map (fun te => mkTrace (snd te) (t_attrs (fst te))) (combine trs ess))).
Proof.
  revert ps. induction trs as [|t trs IH]; intros [|p ps] E; cbn in E; try discriminate; [reflexivity|]. injection E as E1 E2. cbn [mapM]. rewrite E1, (IH _ E2).
  destruct (mapM mut (map snd (snd p))) as [es|]; cbn [bind]; [|reflexivity]. destruct (mapM (fun p => mapM mut (map snd (snd p))) ps) as [ess|]; reflexivity.
Qed.

Lemma preprocess_proof mut h lg L ts ess : shows h lg L -> objects h lg ts ess -> events_unshared h ess ->
  exists h' r, h_preprocess_events mut lg h = (h', r) /\ next h' = next h /\
    (forall y, (forall ev, In ev (concat ess) -> ~ payload_of h ev y) -> cells h' y = cells h y) /\
    match preprocess_events L mut with Ok L' => r = Ok tt /\ shows h' lg L' | Err e => r = Err e end.
Proof.
  intros Hs Ho [Hn Hsole]. apply shows_log in Hs. destruct (log_pairs _ _ _ Hs) as (ps & Ho' & Et & Hp). destruct (objects_fun _ _ _ _ _ _ Ho Ho') as [-> ->]. clear Ho'.
  assert (Hi : inj_payload h (concat (map (fun p => map fst (snd p)) ps))).
  { intros x y p Hx Hy H1 H2. symmetry. eapply (Hsole x p Hx H1); [exact H2|now left]. }
  destruct (change_traces mut ps h Hp Hn Hi) as (h' & r & E & N & S & M).
  exists h', r. split.
  { unfold h_preprocess_events. erewrite hbind_ok by (apply log_traces_run; exact (proj1 Ho)). exact E. }
  split; [exact N|]. split.
  { intros y Hy. apply S. intros (x & Hx & Hxp). exact (Hy x Hx Hxp). }
  unfold preprocess_events. rewrite (preprocess_value mut ps _ Et). destruct (mapM (fun p => mapM mut (map snd (snd p))) ps) as [ess|er]; cbn [bind]; [|exact M].
  destruct M as [-> M]. split; [reflexivity|]. apply shows_log.
  set (all := concat (map (fun p => map fst (snd p)) ps)) in *.
  assert (Hall : forall x, In x all -> exists e, ev_is h (HRef x) e).
  { intros x Hx. apply in_concat in Hx as (l & Hl & Hx). apply in_map_iff in Hl as (q & <- & Hq). apply in_map_iff in Hx as (xe & <- & Hxe). exists (snd xe). exact (proj1 (Forall_forall _ _) (proj2 (proj1 (Forall_forall _ _) Hp _ Hq)) _ Hxe). }
  pose proof (payload_cells h h' all Hall S) as Hnd.
  assert (Hplain : forall y o z, cells h y = Some o -> (forall q, o <> OEvent q) -> In z (refs o) -> ~ is_payload h all z).
  { intros y o z Hy Ho1 Hz (x & Hx & Hxp). pose proof (Hsole x z Hx Hxp y o Hy Hz) as ->. unfold payload_of in Hxp. rewrite Hy in Hxp. injection Hxp as ->. eapply Ho1. reflexivity. }
  destruct Hs as (l & t & a & e & c & p & g & -> & Hc & (x & xs & [= <-] & Hl & F) & Hm).
  assert (Hkm : forall z, In z [t; a; e; c; p; g] -> ~ is_payload h all z) by (intros z Hz; eapply Hplain; [exact Hc|congruence|exact Hz]).
  exists l, t, a, e, c, p, g. split; [reflexivity|]. split; [rewrite Hnd by congruence; exact Hc|]. split.
  - exists t, xs. split; [reflexivity|]. split; [rewrite Hnd by congruence; exact Hl|]. cbn [with_traces l_traces].
    destruct Ho as [(l0 & t0 & a0 & e0 & c0 & p0 & g0 & [= <-] & P1 & P2) Hobj]. rewrite Hc in P1. injection P1 as <- _ _ _ _ _. rewrite Hl in P2. injection P2 as ->.
    clear -F Et M Hobj Hnd Hplain S. clearbody all. revert F Et Hobj M. generalize (l_traces L). clear L. revert ess. induction ps as [|[tr xs] ps IH]; intros ess trs F Et Hobj M; inversion M as [|? es ? ess' M1 M2]; subst; cbn in *; [destruct trs; [constructor|discriminate]|].
    inversion F as [|? tv ? trs' Ft Fr]; subst. injection Et as Et1 Et2. inversion Hobj as [|? ? ? ? (le & at' & O1 & O2) Hobj']; subst. cbn. constructor; [|apply IH; [exact Fr|exact Et2|exact Hobj'|exact M2]].
    destruct Ft as (? & le' & la & [= <-] & Hct & _ & Hat). rewrite Hct in O1. injection O1 as <- <-. exists tr, le', la. split; [reflexivity|]. split; [rewrite Hnd by congruence; exact Hct|]. cbn. split.
    + exists le', (map HRef (map fst xs)). split; [reflexivity|]. split; [rewrite Hnd by congruence; exact O2|]. clear -M1. induction M1; cbn; constructor; auto.
    + eapply (f_dict h h' _ S); [exact Hat| |auto]. intros z [<-|[]]. eapply Hplain; [exact Hct|congruence|]. right. now left.
  - eapply (f_meta h h' _ S).
    + intros y o z Hy Ho1 Hz. eapply Hplain; [exact Hy| |exact Hz]. destruct o; try contradiction; congruence.
    + destruct Hm as (M1 & M2 & M3 & M4 & M5). repeat split; assumption.
    + apply Hkm; cbn; tauto.
    + apply Hkm; cbn; tauto.
    + apply Hkm; cbn; tauto.
    + apply Hkm; cbn; tauto.
    + apply Hkm; cbn; tauto.
Qed.

(** Artificial start and end events. *)
Lemma named_event_run n h : above h -> exists h' x p, new_named_event n h = (h', Ok (HRef x)) /\ above h' /\ old_kept h h' /\ next h <= x < next h' /\ next h <= p < next h' /\
  cells h' x = Some (OEvent (HRef p)) /\ cells h' p = Some (ODict (put_payload (named_event n))).
Proof.
  intro Ha. unfold new_named_event.
  destruct (alloc_run (ODict [(concept_name, HAtom (VStr n))]) h Ha) as (h1 & E1 & C1 & A1 & N1 & S1). erewrite hbind_ok by exact E1.
  destruct (alloc_run (OEvent (HRef (next h))) h1 A1) as (h2 & E2 & C2 & A2 & N2 & S2). erewrite hbind_ok by exact E2. cbn [ret].
  exists h2, (next h1), (next h). split; [reflexivity|]. split; [exact A2|]. split; [split; [lia|]; intros x Hx; rewrite S2, S1 by lia; reflexivity|]. split; [lia|]. split; [lia|]. split; [exact C2|]. rewrite S2 by lia. exact C1.
Qed.
Lemma trace_change_run (f : list hv -> list hv) h tr le a xs : cells h tr = Some (OTrace (HRef le) a) -> cells h le = Some (OList xs) ->
  (hbind (deref (HRef tr)) (fun o => match o with OTrace es _ => list_change f es | _ => fail TypeError end)) h = (mkHeap (upd (cells h) le (Some (OList (f xs)))) (next h), Ok tt).
Proof. intros H1 H2. unfold hbind, deref, peek. rewrite H1. unfold list_change, hbind, as_list, hbind, deref, peek. rewrite H2. reflexivity. Qed.

Definition artificial_trace (tr : hv) : H unit :=
  hbind (new_named_event artificial_end) (fun e => hbind (trace_append tr e) (fun _ => hbind (new_named_event artificial_start) (fun s => trace_insert0 tr s))).

Lemma above_upd h l o : above h -> l < next h -> above (mkHeap (upd (cells h) l (Some o)) (next h)).
Proof. intros Ha Hl x Hx. cbn in *. unfold upd. destruct (Nat.eq_dec x l); [lia|]. auto. Qed.

Lemma artificial_step h tr le la es : above h -> cells h tr = Some (OTrace (HRef le) la) -> cells h le = Some (OList (map HRef es)) ->
  exists h' s e, artificial_trace (HRef tr) h = (h', Ok tt) /\ above h' /\ next h <= next h' /\ (forall y, y < next h -> y <> le -> cells h' y = cells h y) /\
    next h <= s < next h' /\ next h <= e < next h' /\ s <> e /\ cells h' le = Some (OList (map HRef (s :: es ++ [e]))) /\
    ev_is h' (HRef s) (named_event artificial_start) /\ ev_is h' (HRef e) (named_event artificial_end).
Proof.
  intros Ha Ht Hl. pose proof (cell_lt _ _ _ Ha Ht) as Ltr. pose proof (cell_lt _ _ _ Ha Hl) as Lle. assert (Hne : tr <> le) by (intros ->; congruence).
  unfold artificial_trace. destruct (named_event_run artificial_end h Ha) as (h1 & e & pe & E1 & A1 & [K1 K1'] & Be & Bpe & Ce & Cpe). erewrite hbind_ok by exact E1.
  unfold trace_append. unfold hbind at 1. rewrite (trace_change_run _ h1 tr le la (map HRef es)) by (rewrite K1' by lia; assumption). set (h2 := mkHeap _ _).
  assert (S2 : forall y, y <> le -> cells h2 y = cells h1 y) by (intros y Hy; cbn; unfold upd; destruct (Nat.eq_dec y le); [contradiction|reflexivity]).
  assert (A2 : above h2) by (apply above_upd; [exact A1|lia]).
  destruct (named_event_run artificial_start h2 A2) as (h3 & s & pp & E3 & A3 & [K3 K3'] & Bs & Bps & Cs & Cps). erewrite hbind_ok by exact E3.
  unfold trace_insert0. change (next h2) with (next h1) in *.
  rewrite (trace_change_run _ h3 tr le la (map HRef es ++ [HRef e])).
  3:{ rewrite K3' by lia. cbn. unfold upd. destruct (Nat.eq_dec le le); [reflexivity|contradiction]. }
  2:{ rewrite K3' by lia. rewrite S2 by exact Hne. rewrite K1' by lia. exact Ht. }
  set (h4 := mkHeap _ _). assert (S4 : forall y, y <> le -> cells h4 y = cells h3 y) by (intros y Hy; cbn; unfold upd; destruct (Nat.eq_dec y le); [contradiction|reflexivity]).
  exists h4, s, e. split; [reflexivity|]. split; [apply above_upd; [exact A3|lia]|]. cbn [next h4]. split; [lia|]. split; [intros y Hy Hyl; rewrite S4 by exact Hyl; rewrite K3' by lia; rewrite S2 by exact Hyl; apply K1'; exact Hy|].
  split; [lia|]. split; [lia|]. split; [lia|]. split; [|split].
  - cbn. unfold upd. destruct (Nat.eq_dec le le); [|contradiction]. rewrite map_app. reflexivity.
  - exists s, pp. split; [reflexivity|]. rewrite S4 by lia. split; [exact Cs|]. exists pp, (put_payload (named_event artificial_start)). split; [reflexivity|]. split; [rewrite S4 by lia; exact Cps|now apply ent_atoms].
  - exists e, pe. split; [reflexivity|]. rewrite S4 by lia. rewrite K3' by lia. rewrite S2 by lia. split; [exact Ce|]. exists pe, (put_payload (named_event artificial_end)). split; [reflexivity|]. split; [rewrite S4 by lia; rewrite K3' by lia; rewrite S2 by lia; exact Cpe|now apply ent_atoms].
Qed.

(** Traces when only lists of other traces change. *)
Lemma tr_frame h h' (C : loc -> Prop) l t : (forall y, y < next h -> ~ C y -> cells h' y = cells h y) -> above h -> (forall y, C y -> exists xs, cells h y = Some (OList xs)) ->
  tr_is h (HRef l) t -> (forall e, list_of h l e -> ~ C e) -> tr_is h' (HRef l) t.
Proof.
  intros Hs Ha HC (? & le & la & [= <-] & Hc & Hl & Hd) Hle.
  assert (Hk : forall y, (y < next h /\ ~ C y) -> cells h' y = cells h y) by (intros y [? ?]; auto).
  assert (Ho : forall y o, cells h y = Some o -> (forall xs, o <> OList xs) -> y < next h /\ ~ C y).
  { intros y o Hy Hno. split; [eapply cell_lt; eauto|]. intro Hy'. destruct (HC _ Hy') as [xs Hxs]. rewrite Hy in Hxs. injection Hxs as ->. eapply Hno. reflexivity. }
  exists l, le, la. split; [reflexivity|]. split; [rewrite Hk by (eapply Ho; [exact Hc|congruence]); exact Hc|]. split.
  - eapply (f_list h h' _ Hk); [exact Hl| |].
    + intros x [<-|[]]. destruct Hl as (? & ? & [= <-] & Hcl & _). split; [eapply cell_lt; eauto|]. apply Hle. exists (HRef la). exact Hc.
    + intros x d ev e _ _ _ He. eapply (f_event h h' _ Hk); [exact He| |].
      * intros y Hy. destruct He as (y' & p & -> & Hc' & _). destruct Hy as [<-|[]]. eapply Ho; [exact Hc'|congruence].
      * intros y p Hy Hp. destruct He as (y' & p' & -> & Hc' & p'' & dd & [= <-] & Hd' & _). destruct Hy as [<-|[]]. unfold payload_of in Hp. rewrite Hc' in Hp. injection Hp as <-. eapply Ho; [exact Hd'|congruence].
  - eapply (f_dict h h' _ Hk); [exact Hd| |auto]. intros x [<-|[]]. destruct Hd as (? & ? & [= <-] & Hcd & _). eapply Ho; [exact Hcd|congruence].
Qed.

Definition is_list (h : heap) (ts : list loc) (y : loc) : Prop := exists x, In x ts /\ list_of h x y.
Definition framed (h0 h' : heap) (es es' : list loc) : Prop := exists s e, next h0 <= s < next h' /\ next h0 <= e < next h' /\ s <> e /\ es' = s :: es ++ [e].

Lemma artificial_loop : forall (ps : list (loc * trace)) h ess, above h -> Forall (fun p => tr_is h (HRef (fst p)) (snd p)) ps -> Forall2 (event_objects h) (map fst ps) ess ->
  NoDup (map fst ps) -> (forall x y e, In x (map fst ps) -> In y (map fst ps) -> list_of h x e -> list_of h y e -> x = y) ->
  exists h', hiter artificial_trace (map HRef (map fst ps)) h = (h', Ok tt) /\ above h' /\ next h <= next h' /\ (forall y, y < next h -> ~ is_list h (map fst ps) y -> cells h' y = cells h y) /\
    Forall (fun p => tr_is h' (HRef (fst p)) (add_artificial_start_end_trace (snd p))) ps /\
    exists ess', Forall2 (event_objects h') (map fst ps) ess' /\ Forall2 (framed h h') ess ess'.
Proof.
  induction ps as [|[tr t] ps IH]; intros h ess Ha Hf Hobj Hn Hi.
  - inversion Hobj; subst. exists h. cbn. split; [reflexivity|]. split; [exact Ha|]. split; [lia|]. split; [auto|]. split; [constructor|]. exists []. split; constructor.
  - cbn [map fst] in *. inversion Hf as [|? ? Ht Hps]; subst. inversion Hobj as [|? es ? ess' (le & at' & O1 & O2) Hobj']; subst. inversion Hn as [|? ? Hnt Hn']; subst. cbn [fst snd] in Ht.
    destruct (artificial_step h tr le at' es Ha O1 O2) as (h1 & s & e & E1 & A1 & N1 & S1 & Bs & Be & Hse & Cl & Vs & Ve).
    cbn [hiter]. erewrite hbind_ok by exact E1.
    pose proof (cell_lt _ _ _ Ha O1) as Ltr. assert (Htl : tr <> le) by (intros ->; congruence).
    assert (Hle : forall x, In x (map fst ps) -> ~ list_of h x le). { intros x Hx Hl. apply Hnt. rewrite (Hi tr x le); [exact Hx|now left|now right|exists at'; exact O1|exact Hl]. }
    assert (Hother : forall x t', In x (map fst ps) -> tr_is h (HRef x) t' -> tr_is h1 (HRef x) t').
    { intros x t' Hx Ht'. eapply (tr_frame h h1 (fun y => y = le)); [exact S1|exact Ha|intros y ->; eauto|exact Ht'|]. intros q Hq ->. exact (Hle x Hx Hq). }
    assert (Hlist : forall x q, In x (map fst ps) -> (list_of h1 x q <-> list_of h x q)).
    { intros x q Hx. apply in_map_iff in Hx as ([x' t'] & <- & Hx). pose proof (proj1 (Forall_forall _ _) Hps _ Hx) as (? & le' & la' & [= <-] & Hc & _). cbn [fst] in *. unfold list_of. rewrite S1; [tauto|eapply cell_lt; eauto|intros ->; congruence]. }
    destruct (IH h1 ess') as (h2 & E2 & A2 & N2 & S2 & M2 & ess2 & Q1 & Q2).
    + exact A1.
    + apply Forall_forall. intros [x t'] Hx. apply Hother; [apply in_map_iff; exists (x, t'); auto|]. exact (proj1 (Forall_forall _ _) Hps _ Hx).
    + eapply Forall2_imp; [exact Hobj'|]. intros x es' Hx (le' & a' & P1 & P2). exists le', a'. assert (le' <> le) by (intros ->; apply (Hle x Hx); exists a'; exact P1).
      rewrite !S1; auto; try (eapply cell_lt; eauto; fail). intros ->. congruence.
    + exact Hn'.
    + intros x y q Hx Hy H1 H2. apply (proj1 (Hlist _ _ Hx)) in H1. apply (proj1 (Hlist _ _ Hy)) in H2. eapply Hi; eauto; right; assumption.
    + exists h2. split; [exact E2|]. split; [exact A2|]. split; [lia|].
      assert (Hkeep : forall y, y < next h1 -> (forall xs, cells h1 y <> Some (OList xs)) -> cells h2 y = cells h1 y).
      { intros y Hy Hno. apply S2; [exact Hy|]. intros (x & Hx & Hxl). apply in_map_iff in Hx as ([x' t'] & <- & Hx). pose proof (Hother x' t') as Hx'. specialize (Hx' (in_map fst _ _ Hx) (proj1 (Forall_forall _ _) Hps _ Hx)).
        destruct Hx' as (? & le' & la' & [= <-] & Hc & (? & xs & [= <-] & Hcl & _) & _). destruct Hxl as [a' Hxl]. cbn [fst] in Hxl. rewrite Hc in Hxl. injection Hxl as <- _. exact (Hno _ Hcl). }
      assert (Hnle : ~ is_list h1 (map fst ps) le). { intros (x & Hx & Hxl). apply (proj1 (Hlist _ _ Hx)) in Hxl. exact (Hle x Hx Hxl). }
      pose proof (cell_lt _ _ _ A1 Cl) as Lle.
      split; [|split].
      * intros y Hy Hno. rewrite S2; [apply S1; [exact Hy|]|lia|].
        -- intros ->. apply Hno. exists tr. split; [now left|]. exists at'. exact O1.
        -- intros (x & Hx & Hxl). apply Hno. exists x. split; [now right|]. now apply Hlist.
      * constructor; [|exact M2]. cbn [fst snd]. destruct Ht as (? & le' & la & [= <-] & Hc & (? & xs & [= <-] & Hcl & Hevs) & Hat). rewrite Hc in O1. injection O1 as -> <-. rewrite Hcl in O2. injection O2 as ->.
        assert (Hev2 : forall x ev, x < next h1 -> ev_is h1 (HRef x) ev -> ev_is h2 (HRef x) ev).
        { intros x ev Hxn He. eapply (f_event h1 h2 (fun y => y < next h1 /\ forall xs, cells h1 y <> Some (OList xs))); [intros y [Y1 Y2]; apply Hkeep; assumption|exact He| |].
          - intros y [<-|[]]. destruct He as (? & p & [= <-] & Hce & _). split; [exact Hxn|congruence].
          - intros y q [<-|[]] Hq. destruct He as (? & p & [= <-] & Hce & ? & d & [= <-] & Hd & _). unfold payload_of in Hq. rewrite Hce in Hq. injection Hq as <-. split; [eapply cell_lt; eauto|congruence]. }
        assert (Hev1 : forall x ev, ev_is h (HRef x) ev -> ev_is h1 (HRef x) ev).
        { intros x ev He. eapply (f_event h h1 (fun y => y < next h /\ y <> le)); [intros y [Y1 Y2]; apply S1; assumption|exact He| |].
          - intros y [<-|[]]. destruct He as (? & p & [= <-] & Hce & _). split; [eapply cell_lt; eauto|intros ->; congruence].
          - intros y q [<-|[]] Hq. destruct He as (? & p & [= <-] & Hce & ? & d & [= <-] & Hd & _). unfold payload_of in Hq. rewrite Hce in Hq. injection Hq as <-. split; [eapply cell_lt; eauto|intros ->; congruence]. }
        exists tr, le, la. split; [reflexivity|]. split; [rewrite Hkeep; [rewrite S1 by assumption; exact Hc|lia|rewrite S1 by assumption; congruence]|]. split.
        -- exists le, (map HRef (s :: es ++ [e])). split; [reflexivity|]. split; [rewrite S2 by assumption; exact Cl|]. unfold add_artificial_start_end_trace. cbn [t_events map]. rewrite map_app.
           constructor; [apply Hev2; [lia|exact Vs]|]. apply Forall2_app; [|constructor; [apply Hev2; [lia|exact Ve]|constructor]].
           eapply Forall2_imp; [exact Hevs|]. intros v ev Hv He. destruct (ev_ref _ _ _ He) as [x ->]. apply Hev2; [|apply Hev1; exact He]. destruct He as (? & ? & [= <-] & Hce & _). pose proof (cell_lt _ _ _ Ha Hce). lia.
        -- assert (Hlad : exists d, cells h la = Some (ODict d)) by (destruct Hat as (? & d & [= <-] & Hd & _); eauto). destruct Hlad as [d Hlad]. pose proof (cell_lt _ _ _ Ha Hlad). assert (la <> le) by (intros ->; congruence).
           destruct Hat as (? & d' & [= <-] & Hd' & Hent). exists la, d'. split; [reflexivity|]. split; [|exact Hent]. rewrite Hkeep; [rewrite S1 by assumption; exact Hd'|lia|rewrite S1 by assumption; congruence].
      * exists ((s :: es ++ [e]) :: ess2). split; constructor; [|exact Q1| |].
        -- exists le, at'. split; [rewrite Hkeep; [rewrite S1 by assumption; exact O1|lia|rewrite S1 by assumption; congruence]|rewrite S2 by assumption; exact Cl].
        -- exists s, e. repeat split; try lia; assumption.
        -- eapply Forall2_imp; [exact Q2|]. intros l1 l2 _ (s' & e' & W1 & W2 & W3 & ->). exists s', e'. repeat split; try lia; assumption.
Qed.

Lemma add_artificial_proof h lg L ts ess : closed h -> shows h lg L -> objects h lg ts ess -> traces_unshared h ts ->
  exists h', h_add_artificial lg h = (h', Ok tt) /\ next h <= next h' /\ (forall y, y < next h -> (forall tr, In tr ts -> ~ list_of h tr y) -> cells h' y = cells h y) /\
    shows h' lg (add_artificial_start_end L) /\ exists ess', objects h' lg ts ess' /\ Forall2 (framed h h') ess ess'.
Proof.
  intros [Ha0 _] Hs Ho [Hn Hsole]. assert (Ha : above h) by exact Ha0. apply shows_log in Hs.
  destruct Hs as (l & t & a & e & c & p & g & -> & Hc & (x & xs & [= <-] & Hl & F) & Hm).
  destruct Ho as [(l0 & t0 & a0 & e0 & c0 & p0 & g0 & [= <-] & P1 & P2) Hobj]. rewrite Hc in P1. injection P1 as <- <- <- <- <- <-. rewrite Hl in P2. injection P2 as ->.
  assert (Hps : exists ps, ts = map fst ps /\ l_traces L = map snd ps /\ Forall (fun p => tr_is h (HRef (fst p)) (snd p)) ps).
  { clear -F. revert F. generalize (l_traces L). induction ts as [|tr ts IH]; intros trs F; inversion F as [|? tv ? trs' F1 F2]; subst; [exists []; repeat split; constructor|]. destruct (IH _ F2) as (ps & -> & -> & Fp). exists ((tr, tv) :: ps). repeat split. constructor; auto. }
  destruct Hps as (ps & -> & El & Fp).
  destruct (artificial_loop ps h ess Ha Fp Hobj Hn) as (h' & E & A & N & S & M & ess' & Q1 & Q2).
  { intros x y q Hx Hy H1 H2. symmetry. destruct H2 as [a' H2]. eapply (Hsole x q Hx H1); [exact H2|now left]. }
  assert (Hplain : forall y o z, cells h y = Some o -> (forall q1 q2, o <> OTrace q1 q2) -> z < next h -> In z (refs o) -> z < next h /\ ~ is_list h (map fst ps) z).
  { intros y o z Hy Hno Hlt Hz. split; [exact Hlt|]. intros (x & Hx & Hxl). pose proof (Hsole x z Hx Hxl y o Hy Hz) as ->. destruct Hxl as [a' Hxl]. rewrite Hy in Hxl. injection Hxl as ->. eapply Hno. reflexivity. }
  assert (Hk : forall y, (y < next h /\ ~ is_list h (map fst ps) y) -> cells h' y = cells h y) by (intros y [? ?]; auto).
  assert (Hlisted : forall y, is_list h (map fst ps) y -> exists xs, cells h y = Some (OList xs)).
  { intros y (x & Hx & a' & Hxl). apply in_map_iff in Hx as (q & <- & Hq). pose proof (proj1 (Forall_forall _ _) Fp _ Hq) as (? & le & la & [= <-] & Hct & (? & xs & [= <-] & Hcl & _) & _). rewrite Hct in Hxl. injection Hxl as <- _. eauto. }
  assert (Hkeep : forall z, In z [t; a; e; c; p; g] -> z < next h -> z < next h /\ ~ is_list h (map fst ps) z) by (intros z Hz Hzn; eapply (Hplain l); [exact Hc|congruence|exact Hzn|exact Hz]).
  assert (Hlc : cells h' l = Some (OLog (HRef t) (HRef a) (HRef e) (HRef c) (HRef p) (HRef g))).
  { rewrite Hk; [exact Hc|]. split; [eapply cell_lt; eauto|]. intro Hx. destruct (Hlisted _ Hx) as [xs Hxs]. congruence. }
  assert (Htc : cells h' t = Some (OList (map HRef (map fst ps)))).
  { rewrite Hk; [exact Hl|]. apply Hkeep; [now left|eapply cell_lt; eauto]. }
  exists h'. split.
  { unfold h_add_artificial. erewrite hbind_ok by (apply log_traces_run; exists l, t, (HRef a), (HRef e), (HRef c), (HRef p), (HRef g); repeat split; [exact Hc|exact Hl]). exact E. }
  split; [exact N|]. split.
  { intros y Hy Hno. apply S; [exact Hy|]. intros (x & Hx & Hxl). exact (Hno x Hx Hxl). }
  split.
  - apply shows_log. exists l, t, a, e, c, p, g. split; [reflexivity|]. split; [exact Hlc|]. split.
    + exists t, (map HRef (map fst ps)). split; [reflexivity|]. split; [exact Htc|]. unfold add_artificial_start_end, with_traces. cbn [l_traces]. rewrite El. clear -M. induction M as [|p ps Hp M IH]; cbn; constructor; auto.
    + destruct Hm as (M1 & M2 & M3 & M4 & M5).
      assert (Hlt : forall B (R : hv -> B -> Prop) z bs, dict_is h R (HRef z) bs -> z < next h) by (intros B R z bs (? & ? & [= <-] & Hz & _); eapply cell_lt; eauto).
      assert (Hd : forall B (R : hv -> B -> Prop) z bs, In z [t; a; e; c; p; g] -> dict_is h R (HRef z) bs -> z < next h /\ ~ is_list h (map fst ps) z) by (intros B R z bs Hz Hdz; apply Hkeep; [exact Hz|eapply Hlt; exact Hdz]).
      (* nested containers are below [next h] because they have contents *)
      assert (Hin : forall y d x z, cells h y = Some (ODict d) -> In x (map snd d) -> In z (vref x) -> z < next h -> z < next h /\ ~ is_list h (map fst ps) z).
      { intros y d x z Hy Hx Hz Hzn. eapply Hplain; [exact Hy|congruence|exact Hzn|]. cbn. apply in_flat_map. apply in_map_iff in Hx as (kv & <- & Hkv). eauto. }
      repeat split; cbn [with_traces l_attrs l_extensions l_classifiers l_properties l_globals add_artificial_start_end].
      * eapply (f_dict h h' _ Hk); [exact M1| |auto]. intros ? [<-|[]]. eapply Hd; [|exact M1]. cbn; tauto.
      * eapply (f_dict h h' _ Hk); [exact M2|intros ? [<-|[]]; eapply Hd; [|exact M2]; cbn; tauto|]. intros l' d x b Hl' Hcd Hx R. eapply (f_dict h h' _ Hk); [exact R| |auto]. intros z Hz. eapply Hin; eauto. destruct R as (? & ? & -> & Hcc & _). destruct Hz as [<-|[]]. eapply cell_lt; eauto.
      * eapply (f_dict h h' _ Hk); [exact M3|intros ? [<-|[]]; eapply Hd; [|exact M3]; cbn; tauto|]. intros l' d x b Hl' Hcd Hx R. eapply (f_list h h' _ Hk); [exact R| |auto]. intros z Hz. eapply Hin; eauto. destruct R as (? & ? & -> & Hcc & _). destruct Hz as [<-|[]]. eapply cell_lt; eauto.
      * eapply (f_dict h h' _ Hk); [exact M4| |auto]. intros ? [<-|[]]. eapply Hd; [|exact M4]. cbn; tauto.
      * eapply (f_dict h h' _ Hk); [exact M5|intros ? [<-|[]]; eapply Hd; [|exact M5]; cbn; tauto|]. intros l' d x b Hl' Hcd Hx R. eapply (f_dict h h' _ Hk); [exact R| |auto]. intros z Hz. eapply Hin; eauto. destruct R as (? & ? & -> & Hcc & _). destruct Hz as [<-|[]]. eapply cell_lt; eauto.
  - exists ess'. split; [|exact Q2]. split; [|exact Q1]. exists l, t, (HRef a), (HRef e), (HRef c), (HRef p), (HRef g). repeat split; assumption.
Qed.
