(** Proofs for C41: the diagrams. *)
From Verif Require Import Py PyFacts LogModel ColorModel ColorSpec ColorProofs.

Notation get := (dget str_eq_dec).
Definition extends (d d' : dict pystr pystr) : Prop := forall n c, get d n = Some c -> get d' n = Some c.
Definition color_in (d : dict pystr pystr) (n : pystr) : pystr := match get d n with Some c => c | None => [] end.

Lemma extends_refl d : extends d d. Proof. intros n c H; exact H. Qed.
Lemma extends_trans a b c : extends a b -> extends b c -> extends a c.
Proof. intros H1 H2 n x H. apply H2, H1, H. Qed.
Lemma extends_dset d n c : get d n = None \/ get d n = Some c -> extends d (dset str_eq_dec d n c).
Proof. intros Hn m x H. rewrite dget_dset. destruct (str_eq_dec n m) as [->|]; [|exact H]. destruct Hn as [Hn|Hn]; congruence. Qed.

Lemma sbind_ok {S A B} (m : st S A) (f : A -> st S B) s s' a : m s = (s', Ok a) -> sbind m f s = f a s'.
Proof. intros E. unfold sbind. rewrite E. reflexivity. Qed.
Lemma sbind_err {S A B} (m : st S A) (f : A -> st S B) s s' e : m s = (s', Err e) -> sbind m f s = (s', Err e).
Proof. intros E. unfold sbind. rewrite E. reflexivity. Qed.

Section Picks.
  Context {S : Type}.
  Variable lookup : pystr -> st S pystr.
  Variables w h : N.

  (** The colour of every name in turn. *)
  Fixpoint picks (ns : list pystr) (D : dict pystr pystr) : st S (dict pystr pystr) :=
    match ns with [] => sret D | n :: r => sbind (pick lookup D n) (fun cn => picks r (snd cn)) end.

  Lemma picks_app a : forall b D s, picks (a ++ b) D s = sbind (picks a D) (picks b) s.
  Proof.
    induction a as [|n a IH]; intros b D s; [reflexivity|]. cbn [app picks].
    destruct (pick lookup D n s) as [s1 [cn|e]] eqn:E.
    - rewrite (sbind_ok _ _ _ _ _ E), IH. unfold sbind. rewrite E. reflexivity.
    - rewrite (sbind_err _ _ _ _ _ E). unfold sbind. rewrite E. reflexivity.
  Qed.

  Lemma pick_ok D n s s' c D' : pick lookup D n s = (s', Ok (c, D')) -> get D' n = Some c /\ extends D D'.
  Proof.
    unfold pick. destruct (get D n) as [c0|] eqn:E.
    - intros H. injection H as <- <- <-. split; [exact E|apply extends_refl].
    - unfold sbind, sret. destruct (lookup n s) as [s1 [c1|e]]; intros H; [|discriminate]. injection H as <- <- <-.
      split; [rewrite dget_dset; destruct (str_eq_dec n n); congruence|apply extends_dset; auto].
  Qed.
  Lemma picks_ok ns : forall D s s' D', picks ns D s = (s', Ok D') -> extends D D' /\ forall n, In n ns -> exists c, get D' n = Some c.
  Proof.
    induction ns as [|n ns IH]; intros D s s' D' H; cbn [picks] in H.
    - injection H as <- <-. split; [apply extends_refl|]. intros n [].
    - destruct (pick lookup D n s) as [s1 [[c D1]|e]] eqn:E; [|rewrite (sbind_err _ _ _ _ _ E) in H; discriminate].
      rewrite (sbind_ok _ _ _ _ _ E) in H. cbn [snd] in H. apply pick_ok in E. destruct E as [E1 E2].
      apply IH in H. destruct H as [H1 H2]. split; [apply extends_trans with D1; assumption|].
      intros m [<-|Hm]; [exists c; apply H1; exact E1|apply H2; exact Hm].
  Qed.

  (** The rectangles of a trace and the legend, given the colours. *)
  Fixpoint row (D : dict pystr pystr) (ns : list pystr) (x y : N) : list rect :=
    match ns with [] => [] | n :: r => mkRect x y w h (color_in D n) :: row D r (x + w)%N y end.
  Fixpoint row_legend (D : dict pystr pystr) (ns : list pystr) (x y : N) (R : dict pystr rect) : dict pystr rect :=
    match ns with [] => R | n :: r => row_legend D r (x + w)%N y (dset str_eq_dec R n (mkRect x y w h (color_in D n))) end.
  Fixpoint rows (D : dict pystr pystr) (nss : list (list pystr)) (y : N) : list (list rect) :=
    match nss with [] => [] | ns :: r => row D ns 0 y :: rows D r (y + (h + 0))%N end.
  Fixpoint rows_legend (D : dict pystr pystr) (nss : list (list pystr)) (y : N) (R : dict pystr rect) : dict pystr rect :=
    match nss with [] => R | ns :: r => rows_legend D r (y + (h + 0))%N (row_legend D ns 0 y R) end.

  Lemma color_in_ext D D' n : extends D D' -> (exists c, get D n = Some c) -> color_in D n = color_in D' n.
  Proof. intros H (c & E). unfold color_in. rewrite E, (H _ _ E). reflexivity. Qed.
  Lemma row_ext D D' ns : extends D D' -> (forall n, In n ns -> exists c, get D n = Some c) -> forall x y, row D ns x y = row D' ns x y.
  Proof.
    intros H. induction ns as [|n ns IH]; intros Hns x y; [reflexivity|]. cbn [row].
    rewrite (color_in_ext D D' n H) by (apply Hns; left; reflexivity). rewrite IH by (intros; apply Hns; right; assumption). reflexivity.
  Qed.
  Lemma row_legend_ext D D' ns : extends D D' -> (forall n, In n ns -> exists c, get D n = Some c) -> forall x y R, row_legend D ns x y R = row_legend D' ns x y R.
  Proof.
    intros H. induction ns as [|n ns IH]; intros Hns x y R; [reflexivity|]. cbn [row_legend].
    rewrite (color_in_ext D D' n H) by (apply Hns; left; reflexivity). apply IH. intros; apply Hns; right; assumption.
  Qed.

  Definition named (e : event) (n : pystr) : Prop := eget e concept_name = Some (VStr n).
  Lemma drawn_name_ok e n : named e n -> drawn_name e = Ok n.
  Proof. unfold named, eget, drawn_name, egetitem, dgetitem. intros ->. reflexivity. Qed.

  Lemma draw_events_picks es ns : Forall2 named es ns -> forall x y D R s,
    draw_events lookup w h es x y D R s =
    let '(s', r) := picks ns D s in
    (s', match r with Ok D' => Ok (row D' ns x y, D', row_legend D' ns x y R) | Err e => Err e end).
  Proof.
    induction 1 as [|e n es ns He Hes IH]; intros x y D R s; [reflexivity|].
    cbn [draw_events picks]. rewrite (drawn_name_ok _ _ He).
    destruct (pick lookup D n s) as [s1 [[c D1]|ex]] eqn:E.
    2:{ rewrite !(sbind_err _ _ _ _ _ E). reflexivity. }
    rewrite !(sbind_ok _ _ _ _ _ E). cbn [fst snd]. unfold sbind. rewrite IH.
    apply pick_ok in E. destruct E as [Ec _].
    destruct (picks ns D1 s1) as [s2 [D2|ex]] eqn:E2; [|reflexivity].
    apply picks_ok in E2. destruct E2 as [Hext _].
    unfold sret. cbn [fst snd row row_legend]. assert (Hc : color_in D2 n = c) by (unfold color_in; rewrite (Hext _ _ Ec); reflexivity).
    rewrite Hc. reflexivity.
  Qed.

  Lemma draw_traces_picks ts nss : Forall2 (fun t ns => Forall2 named (t_events t) ns) ts nss -> forall y D R s,
    draw_traces lookup w h ts y D R s =
    let '(s', r) := picks (concat nss) D s in
    (s', match r with Ok D' => Ok (rows D' nss y, rows_legend D' nss y R) | Err e => Err e end).
  Proof.
    induction 1 as [|t ns ts nss Ht Hts IH]; intros y D R s; [reflexivity|].
    cbn [draw_traces concat]. rewrite picks_app. unfold sbind. rewrite (draw_events_picks _ _ Ht).
    destruct (picks ns D s) as [s1 [D1|ex]] eqn:E1; [|reflexivity]. cbn [fst snd]. rewrite IH.
    apply picks_ok in E1. destruct E1 as [_ Hk].
    destruct (picks (concat nss) D1 s1) as [s2 [D2|ex]] eqn:E2; [|reflexivity].
    apply picks_ok in E2. destruct E2 as [Hext _]. unfold sret. cbn [fst snd rows rows_legend].
    rewrite (row_ext D1 D2) by assumption. rewrite (row_legend_ext D1 D2) by assumption. reflexivity.
  Qed.

  (** The rows are what the spec asks for. *)
  Lemma row_length D ns : forall x y, length (row D ns x y) = length ns.
  Proof. induction ns; intros; cbn; auto. Qed.
  Lemma row_nth D ns : forall x y j n, nth_error ns j = Some n ->
    nth_error (row D ns x y) j = Some (mkRect (x + N.of_nat j * w) y w h (color_in D n)).
  Proof.
    induction ns as [|m ns IH]; intros x y [|j] n H; try discriminate; cbn [nth_error row] in *.
    - injection H as ->. f_equal. f_equal. lia.
    - rewrite (IH _ _ _ _ H). f_equal. f_equal. lia.
  Qed.
  Lemma rows_length D nss : forall y, length (rows D nss y) = length nss.
  Proof. induction nss; intros; cbn; auto. Qed.
  Lemma rows_nth D nss : forall y i ns, nth_error nss i = Some ns ->
    nth_error (rows D nss y) i = Some (row D ns 0 (y + N.of_nat i * h)).
  Proof.
    induction nss as [|m nss IH]; intros y [|i] ns H; try discriminate; cbn [nth_error rows] in *.
    - injection H as ->. f_equal. f_equal. lia.
    - rewrite (IH _ _ _ H). f_equal. f_equal. lia.
  Qed.
  Lemma rows_paints D nss : paints (color_in D) w h nss (rows D nss 0).
  Proof.
    split; [apply rows_length|]. intros i ns Hi. eexists. split; [apply rows_nth; exact Hi|]. split; [apply row_length|].
    intros j n Hj. rewrite (row_nth _ _ _ _ _ _ Hj). reflexivity.
  Qed.

  (** The keys of the legend. *)
  Definition notin (ks : list pystr) (n : pystr) : bool := if in_dec str_eq_dec n ks then false else true.
  Definition add_keys (ks ns : list pystr) : list pystr := ks ++ filter (notin ks) (firsts ns).
  Lemma remove_filter (x : pystr) l : remove str_eq_dec x l = filter (fun y => if str_eq_dec x y then false else true) l.
  Proof. induction l as [|y l IH]; [reflexivity|]. cbn. destruct (str_eq_dec x y); [exact IH|f_equal; exact IH]. Qed.
  Lemma filter_filter {A} (p q : A -> bool) l : filter p (filter q l) = filter (fun x => q x && p x) l.
  Proof. induction l as [|x l IH]; [reflexivity|]. cbn. destruct (q x); cbn; [destruct (p x); rewrite IH; reflexivity|exact IH]. Qed.
  Lemma add_keys_cons ks x ns : add_keys ks (x :: ns) = add_keys (if in_dec str_eq_dec x ks then ks else ks ++ [x]) ns.
  Proof.
    unfold add_keys. cbn [firsts filter]. unfold notin at 1. rewrite remove_filter. destruct (in_dec str_eq_dec x ks) as [Hin|Hni].
    - f_equal. rewrite filter_filter. apply filter_ext. intros y. unfold notin. destruct (str_eq_dec x y) as [<-|]; [|reflexivity].
      destruct (in_dec str_eq_dec x ks); [reflexivity|contradiction].
    - rewrite <- app_assoc. f_equal. cbn [app]. f_equal. rewrite filter_filter. apply filter_ext. intros y. unfold notin.
      destruct (str_eq_dec x y) as [<-|Hn].
      + cbn. destruct (in_dec str_eq_dec x (ks ++ [x])) as [|H]; [reflexivity|]. exfalso. apply H. apply in_or_app. right. left. reflexivity.
      + cbn. destruct (in_dec str_eq_dec y ks) as [Hi|Hi]; destruct (in_dec str_eq_dec y (ks ++ [x])) as [Hj|Hj]; try reflexivity.
        * exfalso. apply Hj. apply in_or_app. auto.
        * exfalso. apply in_app_or in Hj. destruct Hj as [Hj|[Hj|[]]]; [contradiction|congruence].
  Qed.
  Lemma add_keys_nil ks : add_keys ks [] = ks.
  Proof. unfold add_keys. cbn. apply app_nil_r. Qed.
  Lemma row_legend_keys D ns : forall x y R, dkeys (row_legend D ns x y R) = add_keys (dkeys R) ns.
  Proof.
    induction ns as [|n ns IH]; intros x y R; cbn [row_legend]; [rewrite add_keys_nil; reflexivity|].
    rewrite IH, add_keys_cons, dkeys_dset. f_equal.
    destruct (dmem str_eq_dec R n) eqn:E; destruct (in_dec str_eq_dec n (dkeys R)) as [Hi|Hi]; try reflexivity.
    - apply dmem_In in E. contradiction.
    - apply (dmem_In str_eq_dec) in Hi. congruence.
  Qed.
  Lemma add_keys_app ks a : forall b, add_keys ks (a ++ b) = add_keys (add_keys ks a) b.
  Proof.
    revert ks. induction a as [|x a IH]; intros ks b; cbn [app]; [rewrite add_keys_nil; reflexivity|].
    rewrite !add_keys_cons. apply IH.
  Qed.
  Lemma rows_legend_keys D nss : forall y R, dkeys (rows_legend D nss y R) = add_keys (dkeys R) (concat nss).
  Proof.
    induction nss as [|ns nss IH]; intros y R; cbn [rows_legend concat]; [rewrite add_keys_nil; reflexivity|].
    rewrite IH, row_legend_keys, add_keys_app. reflexivity.
  Qed.
  Definition painted (D : dict pystr pystr) (R : dict pystr rect) : Prop := forall n r, In (n, r) R -> fc r = color_in D n.
  Lemma dset_In (R : dict pystr rect) n r m x : In (m, x) (dset str_eq_dec R n r) -> (m = n /\ x = r) \/ In (m, x) R.
  Proof.
    induction R as [|[k v] R IH]; cbn [dset].
    - intros [E|[]]. injection E as <- <-. auto.
    - destruct (str_eq_dec n k) as [->|Hn].
      + intros [E|H]; [injection E as <- <-; auto|right; right; exact H].
      + intros [E|H]; [right; left; exact E|]. destruct (IH H) as [H'|H']; [auto|right; right; exact H'].
  Qed.
  Lemma row_legend_painted D ns : forall x y R, painted D R -> painted D (row_legend D ns x y R).
  Proof.
    induction ns as [|n ns IH]; intros x y R H; cbn [row_legend]; [exact H|]. apply IH. intros m r Hin.
    apply dset_In in Hin. destruct Hin as [[-> ->]|Hin]; [reflexivity|apply H; exact Hin].
  Qed.
  Lemma rows_legend_painted D nss : forall y R, painted D R -> painted D (rows_legend D nss y R).
  Proof. induction nss as [|ns nss IH]; intros y R H; cbn [rows_legend]; [exact H|]. apply IH, row_legend_painted, H. Qed.
  Lemma rows_legend_of D nss : legend_of (color_in D) (concat nss) (rows_legend D nss 0 []).
  Proof.
    split.
    - rewrite rows_legend_keys. unfold add_keys. cbn [dkeys map app].
      assert (Hf : forall l, filter (notin []) l = l) by (intros l; induction l as [|a l IH]; [reflexivity|]; cbn; f_equal; exact IH).
      apply Hf.
    - apply rows_legend_painted. intros n r [].
  Qed.
End Picks.

(** *** Invariants of the lookups *)
Section Inv.
  Context {S : Type}.
  Variable lookup : pystr -> st S pystr.
  Variable R : S -> S -> Prop.
  Variable I : S -> Prop.
  Variable ok : S -> pystr -> pystr -> Prop.
  Variable E : S -> exc -> Prop.
  Variable NS : list pystr.
  Hypothesis Rrefl : forall s, R s s.
  Hypothesis Rtrans : forall a b c, R a b -> R b c -> R a c.
  Hypothesis Rok : forall a b n c, R a b -> ok a n c -> ok b n c.
  Hypothesis step : forall n s s' r, In n NS -> I s -> lookup n s = (s', r) ->
    I s' /\ R s s' /\ match r with Ok c => ok s' n c | Err e => E s' e end.
  Lemma picks_inv ns : incl ns NS -> forall D s s' r, I s -> (forall n c, get D n = Some c -> ok s n c) ->
    picks lookup ns D s = (s', r) ->
    I s' /\ R s s' /\ match r with Ok D' => forall n c, get D' n = Some c -> ok s' n c | Err e => E s' e end.
  Proof.
    induction ns as [|n ns IH]; intros Hin D s s' r HI HD H; cbn [picks] in H.
    - injection H as <- <-. auto.
    - assert (Hincl : incl ns NS) by (intros x Hx; apply Hin; right; exact Hx).
      unfold sbind, pick in H. destruct (get D n) as [c|] eqn:Eg.
      + cbn in H. apply (IH Hincl D s s' r HI HD H).
      + unfold sbind, sret in H. destruct (lookup n s) as [s1 r1] eqn:El.
        destruct (step _ _ _ _ (Hin n (or_introl eq_refl)) HI El) as (HI1 & HR1 & Hr1).
        destruct r1 as [c|e].
        * cbn [snd] in H. apply (IH Hincl) in H; [|exact HI1|].
          -- destruct H as (A & B & C). split; [exact A|]. split; [apply Rtrans with s1; assumption|exact C].
          -- intros m x. rewrite dget_dset. destruct (str_eq_dec n m) as [<-|Hn].
             ++ intros Ex. injection Ex as <-. exact Hr1.
             ++ intros Ex. apply Rok with s; auto.
        * injection H as <- <-. auto.
  Qed.
End Inv.

(** How the provider and a dict of colours evolve without a reset. *)
Notation state := (provider * dict pystr pystr)%type.
Definition grows (s s' : state) : Prop :=
  incl (used (fst s)) (used (fst s')) /\ extends (snd s) (snd s') /\
  (forall n c, get (snd s) n = None -> get (snd s') n = Some c -> ~ In (CHex c) (used (fst s)) /\ In (CHex c) (used (fst s'))) /\
  (forall n m c, get (snd s) n = None -> get (snd s) m = None -> get (snd s') n = Some c -> get (snd s') m = Some c -> n = m).
Lemma grows_refl s : grows s s.
Proof.
  split; [apply incl_refl|]. split; [apply extends_refl|]. split; [intros; congruence|intros; congruence].
Qed.
Lemma grows_trans a b c : grows a b -> grows b c -> grows a c.
Proof.
  intros (A1 & A2 & A3 & A4) (B1 & B2 & B3 & B4).
  split; [apply incl_tran with (used (fst b)); assumption|]. split; [apply extends_trans with (snd b); assumption|].
  split.
  - intros n x Hn Hx. destruct (get (snd b) n) as [y|] eqn:Ey.
    + pose proof (B2 _ _ Ey) as E. rewrite E in Hx. injection Hx as ->.
      destruct (A3 _ _ Hn Ey) as [H1 H2]. split; [exact H1|apply B1; exact H2].
    + destruct (B3 _ _ Ey Hx) as [H1 H2]. split; [|exact H2]. intros H. apply H1, A1, H.
  - intros n m x Hn Hm Hnx Hmx.
    destruct (get (snd b) n) as [y|] eqn:Ey; destruct (get (snd b) m) as [z|] eqn:Ez.
    + pose proof (B2 _ _ Ey). pose proof (B2 _ _ Ez). apply (A4 n m x); congruence.
    + pose proof (B2 _ _ Ey) as E. rewrite E in Hnx. injection Hnx as ->. destruct (A3 _ _ Hn Ey) as [_ Hin]. destruct (B3 _ _ Ez Hmx) as [Hni _]. contradiction.
    + pose proof (B2 _ _ Ez) as E. rewrite E in Hmx. injection Hmx as ->. destruct (A3 _ _ Hm Ez) as [_ Hin]. destruct (B3 _ _ Ey Hnx) as [Hni _]. contradiction.
    + apply (B4 n m x); assumption.
Qed.
Lemma grows_good s s' : grows s s' -> distinct (snd s) -> taken (snd s) (fst s) -> distinct (snd s') /\ taken (snd s') (fst s').
Proof.
  intros (A1 & A2 & A3 & A4) Hd Ht. split.
  - intros n m c Hn Hm. destruct (get (snd s) n) as [x|] eqn:En; destruct (get (snd s) m) as [y|] eqn:Em.
    + pose proof (A2 _ _ En). pose proof (A2 _ _ Em). apply (Hd n m c); congruence.
    + pose proof (A2 _ _ En) as E. rewrite E in Hn. injection Hn as ->. destruct (A3 _ _ Em Hm) as [Hni _]. exfalso. apply Hni, Ht with n, En.
    + pose proof (A2 _ _ Em) as E. rewrite E in Hm. injection Hm as ->. destruct (A3 _ _ En Hn) as [Hni _]. exfalso. apply Hni, Ht with m, Em.
    + apply (A4 n m c); assumption.
  - intros n c Hn. destruct (get (snd s) n) as [x|] eqn:En.
    + pose proof (A2 _ _ En) as E. rewrite E in Hn. injection Hn as ->. apply A1, Ht with n, En.
    + apply (A3 _ _ En Hn).
Qed.
Lemma grows_use x p d : grows (p, d) (use x p, d).
Proof.
  unfold grows; cbn [fst snd]. split; [unfold use; destruct (in_dec _ _ _); [apply incl_refl|apply incl_tl, incl_refl]|].
  split; [apply extends_refl|]. split; intros; congruence.
Qed.
Lemma grows_used p p' d : used p' = used p -> grows (p, d) (p', d).
Proof. intros E. unfold grows; cbn [fst snd]. rewrite E. split; [apply incl_refl|]. split; [apply extends_refl|]. split; intros; congruence. Qed.
Lemma grows_next p p' d n c : used p' = CHex c :: used p -> ~ In (CHex c) (used p) -> get d n = None -> grows (p, d) (p', dset str_eq_dec d n c).
Proof.
  intros E Hni Hn. unfold grows; cbn [fst snd]. rewrite E. split; [apply incl_tl, incl_refl|]. split; [apply extends_dset; auto|].
  split.
  - intros m x Hm. rewrite dget_dset. destruct (str_eq_dec n m); [|congruence]. intros Ex. injection Ex as <-. split; [exact Hni|left; reflexivity].
  - intros m k x Hm Hk. rewrite !dget_dset. destruct (str_eq_dec n m), (str_eq_dec n k); congruence.
Qed.
Lemma dset_same (d : dict pystr pystr) n c m : get d n = Some c -> get (dset str_eq_dec d n c) m = get d m.
Proof. intros E. rewrite dget_dset. destruct (str_eq_dec n m); congruence. Qed.
Lemma grows_same p d n c : get d n = Some c -> grows (p, d) (p, dset str_eq_dec d n c).
Proof.
  intros E. unfold grows; cbn [fst snd]. split; [apply incl_refl|]. split; [apply extends_dset; auto|].
  split; intros; rewrite !dset_same in * by exact E; congruence.
Qed.

Section Random.
  Variable rnd : nat -> N.
  Variable fuel : nat.

  (** An exception of next: all colours are gone, or the model's bound on draws was too small. *)
  Definition no_color (s : state) (e : exc) : Prop :=
    e = Diverges \/ (e = OverflowError /\ N.of_nat (length (used (fst s))) = (256 ^ 3)%N).
  Lemma next_err p p' e : next_color rnd fuel p = (p', Err e) -> e = Diverges \/ (e = OverflowError /\ N.of_nat (length (used p')) = (256 ^ 3)%N).
  Proof.
    intros H. destruct (next_spec rnd fuel p) as (p1 & r1 & E1 & H1). rewrite H in E1. injection E1 as <- <-.
    destruct H1 as [Hu [(-> & _ & Hl)|(-> & _)]]; [right; rewrite Hu; auto|auto].
  Qed.

  (** The default lookup. *)
  Definition lookup0 : pystr -> st state pystr := cached_or (fun _ => next_color rnd fuel).
  Lemma lookup0_step NS n s s' r : In n NS -> lookup0 n s = (s', r) ->
    (grows s s' /\ forall m, ~ In m NS -> get (snd s') m = get (snd s) m) /\
    match r with Ok c => get (snd s') n = Some c | Err e => no_color s' e end.
  Proof.
    intros HN H. destruct s as [p d]. unfold lookup0, cached_or in H. cbn [fst snd] in H. destruct (get d n) as [c|] eqn:En.
    - injection H as <- <-. cbn [snd]. split; [split|].
      + apply grows_same. exact En.
      + intros m Hm. apply dset_same. exact En.
      + rewrite dset_same; exact En.
    - destruct (next_color rnd fuel p) as [p1 [c|e]] eqn:Ex; injection H as <- <-; cbn [snd].
      + destruct (next_cases _ _ _ _ _ Ex) as [Hni Hu]. split; [split|].
        * apply grows_next; assumption.
        * intros m Hm. rewrite dget_dset. destruct (str_eq_dec n m); [subst; contradiction|reflexivity].
        * rewrite dget_dset. destruct (str_eq_dec n n); congruence.
      + split; [split|].
        * apply grows_used. apply (next_cases _ _ _ _ _ Ex).
        * reflexivity.
        * exact (next_err _ _ _ Ex).
  Qed.

  Lemma picks0 ns s s' r : picks lookup0 ns [] s = (s', r) ->
    grows s s' /\ (forall m, ~ In m ns -> get (snd s') m = get (snd s) m) /\
    match r with Ok D' => forall n c, get D' n = Some c -> get (snd s') n = Some c | Err e => no_color s' e end.
  Proof.
    intros H.
    destruct (picks_inv lookup0 (fun s s' => grows s s' /\ forall m, ~ In m ns -> get (snd s') m = get (snd s) m) (fun _ => True)
      (fun s n c => get (snd s) n = Some c) no_color ns) with (ns := ns) (D := @nil (pystr * pystr)) (s := s) (s' := s') (r := r) as (_ & (A & B) & C).
    - intros x. split; [apply grows_refl|reflexivity].
    - intros a b c (A1 & A2) (B1 & B2). split; [apply grows_trans with b; assumption|]. intros m Hm. rewrite B2, A2 by exact Hm. reflexivity.
    - intros a b n c ((_ & A & _) & _) Hok. apply A, Hok.
    - intros n s1 s2 r1 Hin _ Hl. split; [exact Logic.I|]. apply (lookup0_step ns) with (1 := Hin) (2 := Hl).
    - apply incl_refl.
    - exact Logic.I.
    - intros n c Hn. discriminate.
    - exact H.
    - auto.
  Qed.

  (** The lookup of draw_placements_of_events. *)
  Variable q : pystr -> bool.
  Definition lookup1 : pystr -> st (state * dict pystr pystr) pystr := cached_or (placement_color rnd fuel q).
  Definition agree (s : state * dict pystr pystr) : Prop :=
    forall n c, get (snd s) n = Some c -> if q n then get (snd (fst s)) n = Some c else c = black.
  Lemma lookup1_step NS n s s' r : In n NS -> agree s -> lookup1 n s = (s', r) ->
    agree s' /\ (grows (fst s) (fst s') /\ forall m, (~ In m NS \/ q m = false) -> get (snd (fst s')) m = get (snd (fst s)) m) /\
    match r with Ok c => (if q n then get (snd (fst s')) n = Some c else c = black) | Err e => no_color (fst s') e end.
  Proof.
    intros HN HA H. destruct s as [[p d] pr]. unfold lookup1, cached_or in H. cbn [fst snd] in H. destruct (get pr n) as [c|] eqn:En.
    - injection H as <- <-. cbn [fst snd]. split; [|split; [split|]].
      + intros m x. cbn [fst snd]. rewrite dset_same by exact En. apply HA.
      + apply grows_refl.
      + reflexivity.
      + apply HA. exact En.
    - unfold placement_color in H. cbn [fst snd] in H. destruct (q n) eqn:Eq.
      + destruct (get d n) as [c|] eqn:Ed.
        * injection H as <- <-. cbn [fst snd]. split; [|split; [split|]].
          -- intros m x. cbn [fst snd]. rewrite dget_dset. destruct (str_eq_dec n m) as [<-|].
             ++ rewrite Eq. intros Ex. injection Ex as <-. exact Ed.
             ++ apply HA.
          -- apply grows_refl.
          -- reflexivity.
          -- exact Ed.
        * destruct (next_color rnd fuel p) as [p1 [c|e]] eqn:Ex; injection H as <- <-; cbn [fst snd].
          -- destruct (next_cases _ _ _ _ _ Ex) as [Hni Hu]. split; [|split; [split|]].
             ++ intros m x. cbn [fst snd]. rewrite !dget_dset. destruct (str_eq_dec n m) as [<-|].
                ** rewrite Eq. auto.
                ** apply HA.
             ++ apply grows_next; assumption.
             ++ intros m Hm. rewrite dget_dset. destruct (str_eq_dec n m) as [<-|]; [|reflexivity].
                destruct Hm as [Hm|Hm]; [contradiction|congruence].
             ++ rewrite dget_dset. destruct (str_eq_dec n n); congruence.
          -- split; [|split; [split|]].
             ++ exact HA.
             ++ apply grows_used. apply (next_cases _ _ _ _ _ Ex).
             ++ reflexivity.
             ++ exact (next_err _ _ _ Ex).
      + injection H as <- <-. cbn [fst snd]. split; [|split; [split|]].
        * intros m x. cbn [fst snd]. rewrite dget_dset. destruct (str_eq_dec n m) as [<-|].
          -- rewrite Eq. intros Ex. injection Ex as <-. reflexivity.
          -- apply HA.
        * apply grows_refl.
        * reflexivity.
        * reflexivity.
  Qed.
  Lemma picks1 ns s s' pr' r : picks lookup1 ns [] (s, []) = ((s', pr'), r) ->
    grows s s' /\ (forall m, (~ In m ns \/ q m = false) -> get (snd s') m = get (snd s) m) /\
    match r with Ok D' => forall n c, get D' n = Some c -> (if q n then get (snd s') n = Some c else c = black) | Err e => no_color s' e end.
  Proof.
    intros H.
    destruct (picks_inv lookup1 (fun s s' => grows (fst s) (fst s') /\ forall m, (~ In m ns \/ q m = false) -> get (snd (fst s')) m = get (snd (fst s)) m) agree
      (fun s n c => if q n then get (snd (fst s)) n = Some c else c = black) (fun s => no_color (fst s)) ns)
      with (ns := ns) (D := @nil (pystr * pystr)) (s := (s, @nil (pystr * pystr))) (s' := (s', pr')) (r := r) as (_ & (A & B) & C).
    - intros x. split; [apply grows_refl|reflexivity].
    - intros a b c (A1 & A2) (B1 & B2). split; [apply grows_trans with (fst b); assumption|]. intros m Hm. rewrite B2, A2 by exact Hm. reflexivity.
    - intros a b n c ((_ & A & _) & _) Hok. destruct (q n); [apply A, Hok|exact Hok].
    - intros n s1 s2 r1 Hin HA Hl. apply (lookup1_step ns) with (1 := Hin) (2 := HA) (3 := Hl).
    - apply incl_refl.
    - intros n c Hn. discriminate.
    - intros n c Hn. discriminate.
    - exact H.
    - auto.
  Qed.
End Random.

(** *** The axes *)
Lemma names_lens log nss : names_of log nss -> trace_lens log = map (@length pystr) nss.
Proof.
  unfold names_of, trace_lens. induction 1 as [|t ns ts nss Ht _ IH]; [reflexivity|]. cbn [map]. f_equal; [|exact IH].
  clear - Ht. induction Ht; cbn; congruence.
Qed.
Lemma log_axes_ok lens ws hs : log_axes lens ws hs =
  if (hs =? 0)%N then Err ZeroDivisionError else match lens with [] => Err ValueError | _ =>
  if (ws =? 0)%N then Err ZeroDivisionError else Ok (N.of_nat (length lens), N.of_nat (fold_right Nat.max 0 lens)) end.
Proof.
  unfold log_axes. destruct (N.eqb_spec hs 0) as [->|Hh]; [reflexivity|]. destruct lens as [|l lens]; [reflexivity|].
  destruct (N.eqb_spec ws 0) as [->|Hw]; [reflexivity|]. rewrite !N.add_sub. rewrite !N.div_mul by assumption. reflexivity.
Qed.

(** *** The diagrams *)
Lemma bad_axes_of nss ws hs e : log_axes (map (@length pystr) nss) ws hs = Err e -> bad_axes nss ws hs e.
Proof.
  rewrite log_axes_ok. destruct (N.eqb_spec hs 0) as [->|]; [intros H; injection H as <-; left; auto|].
  destruct nss as [|ns nss]; [intros H; injection H as <-; right; auto|]. cbn [map].
  destruct (N.eqb_spec ws 0) as [->|]; [intros H; injection H as <-; left; auto|discriminate].
Qed.
Lemma good_axes_of nss ws hs a : log_axes (map (@length pystr) nss) ws hs = Ok a -> a = (N.of_nat (length nss), N.of_nat (longest nss)).
Proof.
  rewrite log_axes_ok. destruct (N.eqb_spec hs 0); [discriminate|]. destruct nss as [|ns nss]; [discriminate|]. cbn [map].
  destruct (N.eqb_spec ws 0); [discriminate|]. intros H. injection H as <-. cbn [length]. rewrite map_length. reflexivity.
Qed.

Lemma draw_like_picks {S} (cp : pystr -> st S pystr) log ws hs nss s : names_of log nss ->
  draw_like cp log ws hs s =
  let '(s', r) := picks (cached_or cp) (concat nss) [] s in
  (s', bind r (fun D => bind (log_axes (map (@length pystr) nss) ws hs) (fun a =>
         Ok ((rows ws hs D nss 0, rows_legend ws hs D nss 0 []), a)))).
Proof.
  intros Hn. unfold draw_like, draw_internal. unfold sbind. rewrite (draw_traces_picks _ _ _ _ _ Hn), (names_lens _ _ Hn).
  rewrite !N.mul_1_l. destruct (picks (cached_or cp) (concat nss) [] s) as [s' [D|e]]; [|reflexivity].
  cbn [bind]. destruct (log_axes _ ws hs); reflexivity.
Qed.

Lemma diagram_proof rnd fuel log ws hs p ca nss p' ca' r : names_of log nss ->
  draw_traces_diversity_diagram rnd fuel log ws hs (p, ca) = ((p', ca'), r) ->
  (forall n c, get ca n = Some c -> get ca' n = Some c) /\ (forall n, ~ In n (concat nss) -> get ca' n = get ca n) /\
  match r with
  | Ok ((rows, legend), labels) => labels = (N.of_nat (length nss), N.of_nat (longest nss)) /\
      exists col, (forall n, In n (concat nss) -> get ca' n = Some (col n)) /\ paints col ws hs nss rows /\ legend_of col (concat nss) legend
  | Err e => e = Diverges \/ (e = OverflowError /\ N.of_nat (length (used p')) = (256 ^ 3)%N) \/ bad_axes nss ws hs e
  end.
Proof.
  intros Hn H. unfold draw_traces_diversity_diagram in H. rewrite (draw_like_picks _ _ _ _ _ _ Hn) in H.
  fold (lookup0 rnd fuel) in H. destruct (picks (lookup0 rnd fuel) (concat nss) [] (p, ca)) as [s1 r1] eqn:E.
  assert (Hs : s1 = (p', ca')) by exact (f_equal fst H). subst s1.
  destruct (picks0 _ _ _ _ _ _ E) as ((_ & Hext & _) & Hkeep & Hr). cbn [fst snd] in *.
  split; [exact Hext|]. split; [exact Hkeep|].
  apply (f_equal snd) in H. cbn [snd] in H. subst r. destruct r1 as [D|e]; cbn [bind].
  - destruct (log_axes (map (@length pystr) nss) ws hs) as [a|e] eqn:Ea; cbn [bind].
    + split; [apply good_axes_of with ws hs; exact Ea|]. exists (color_in D). split; [|split; [apply rows_paints|apply rows_legend_of]].
      intros n Hin. destruct (picks_ok _ _ _ _ _ _ E) as [_ Hk]. destruct (Hk n Hin) as (c & Ec). unfold color_in. rewrite Ec. apply Hr, Ec.
    + right. right. apply bad_axes_of. exact Ea.
  - destruct Hr as [Hr|Hr]; auto.
Qed.

Lemma diagram_grows rnd fuel log ws hs s nss : names_of log nss -> grows s (fst (draw_traces_diversity_diagram rnd fuel log ws hs s)).
Proof.
  intros Hn. unfold draw_traces_diversity_diagram. rewrite (draw_like_picks _ _ _ _ _ _ Hn). fold (lookup0 rnd fuel).
  destruct (picks (lookup0 rnd fuel) (concat nss) [] s) as [s1 r1] eqn:E. cbn [fst]. apply (picks0 _ _ _ _ _ _ E).
Qed.

Lemma placement_proof rnd fuel q log hs p ca nss p' ca' r : names_of log nss ->
  draw_placements_of_events rnd fuel q log hs (p, ca) = ((p', ca'), r) ->
  grows (p, ca) (p', ca') /\ (forall n, (~ In n (concat nss) \/ q n = false) -> get ca' n = get ca n) /\
  match r with
  | Ok ((rows, legend), labels) => labels = (N.of_nat (length nss), N.of_nat (longest nss)) /\
      exists col, (forall n, In n (concat nss) -> if q n then get ca' n = Some (col n) else col n = str "#000000") /\
        paints col 1 hs nss rows /\ legend_of col (concat nss) legend
  | Err e => e = Diverges \/ (e = OverflowError /\ N.of_nat (length (used p')) = (256 ^ 3)%N) \/ bad_axes nss 1 hs e
  end.
Proof.
  intros Hn H. unfold draw_placements_of_events in H. rewrite (draw_like_picks _ _ _ _ _ _ Hn) in H. cbn [fst snd] in H.
  fold (lookup1 rnd fuel q) in H.
  destruct (picks (lookup1 rnd fuel q) (concat nss) [] (use (CTuple 0 0 0) p, ca, [])) as [[s1 pr1] r1] eqn:E.
  cbv beta iota zeta in H.
  assert (Hs : s1 = (p', ca')) by exact (f_equal fst H). subst s1.
  destruct (picks1 _ _ _ _ _ _ _ _ E) as (Hg & Hkeep & Hr). cbn [fst snd] in *.
  split; [apply grows_trans with (2 := Hg), grows_use|]. split; [exact Hkeep|].
  apply (f_equal snd) in H. cbn [snd] in H. subst r. destruct r1 as [D|e]; cbn [bind].
  - destruct (log_axes (map (@length pystr) nss) 1 hs) as [a|e] eqn:Ea; cbn [bind].
    + split; [apply good_axes_of with 1%N hs; exact Ea|]. exists (color_in D). split; [|split; [apply rows_paints|apply rows_legend_of]].
      intros n Hin. destruct (picks_ok _ _ _ _ _ _ E) as [_ Hk]. destruct (Hk n Hin) as (c & Ec). unfold color_in. rewrite Ec. apply Hr, Ec.
    + right. right. apply bad_axes_of. exact Ea.
  - destruct Hr as [Hr|Hr]; auto.
Qed.

Lemma distinct_proof rnd fuel log ws hs p ca nss p' ca' r : names_of log nss -> distinct ca -> taken ca p ->
  draw_traces_diversity_diagram rnd fuel log ws hs (p, ca) = ((p', ca'), r) -> distinct ca' /\ taken ca' p'.
Proof.
  intros Hn Hd Ht H. pose proof (diagram_grows rnd fuel log ws hs (p, ca) nss Hn) as Hg. rewrite H in Hg.
  apply (grows_good _ _ Hg Hd Ht).
Qed.

(** *** Sessions *)
Lemma paints_ext f g w h nss rows : (forall n, In n (concat nss) -> f n = g n) -> paints f w h nss rows -> paints g w h nss rows.
Proof.
  intros Hfg [Hl H]. split; [exact Hl|]. intros i ns Hi. destruct (H i ns Hi) as (row & Hrow & Hlr & Hj).
  exists row. split; [exact Hrow|]. split; [exact Hlr|]. intros j n Hn. rewrite <- Hfg; [apply Hj; exact Hn|].
  apply in_concat. exists ns. split; [apply nth_error_In with i; exact Hi|apply nth_error_In with j; exact Hn].
Qed.
Lemma draw_step_grows rnd fuel o s nss : names_of (step_log o) nss -> grows s (fst (draw_step rnd fuel o s)).
Proof.
  destruct o as [log ws hs|q log hs]; cbn [draw_step step_log]; intros Hn; [apply diagram_grows with nss; exact Hn|].
  destruct s as [p ca]. destruct (draw_placements_of_events rnd fuel q log hs (p, ca)) as [[p' ca'] r] eqn:E. cbn [fst].
  apply (placement_proof _ _ _ _ _ _ _ _ _ _ _ Hn E).
Qed.

Lemma session_inv rnd fuel os : forall s, Forall (fun o => exists nss, names_of (step_log o) nss) os ->
  exists s', grows s s' /\ forall i o d nss, nth_error os i = Some o -> names_of (step_log o) nss ->
    nth_error (session rnd fuel os s) i = Some (Ok d) ->
    (forall n, In n (concat nss) -> step_shows o n = true -> get (snd s') n <> None) /\
    paints (step_color o (color_in (snd s'))) (fst (step_scales o)) (snd (step_scales o)) nss (fst (fst d)).
Proof.
  induction os as [|o os IH]; intros s Hall.
  - exists s. split; [apply grows_refl|]. intros [|i] o d nss Hi; discriminate.
  - inversion Hall as [|? ? (nss0 & Hn0) Hall']; subst. cbn [session].
    destruct (draw_step rnd fuel o s) as [s1 x] eqn:E1.
    pose proof (draw_step_grows rnd fuel o s nss0 Hn0) as Hg1. rewrite E1 in Hg1. cbn [fst] in Hg1.
    destruct (IH s1 Hall') as (s' & Hg & Hs). exists s'. split; [apply grows_trans with s1; assumption|].
    intros [|i] o' d nss Hi Hn Hd; cbn [nth_error] in Hi, Hd; [|apply (Hs i o' d nss Hi Hn Hd)].
    injection Hi as <-. injection Hd as ->. clear Hs IH Hn0 nss0 Hall Hall'.
    destruct Hg as (_ & Hext & _). destruct s as [p ca]. destruct s1 as [p1 ca1]. cbn [snd] in Hext.
    destruct d as [[rs lg] lab]. destruct o as [log ws hs|q log hs]; cbn [draw_step step_log step_scales step_color step_shows fst snd] in *.
    + destruct (diagram_proof _ _ _ _ _ _ _ _ _ _ _ Hn E1) as (_ & _ & _ & col & Hc & Hp & _).
      split.
      * intros n Hin _. rewrite (Hext _ _ (Hc n Hin)). discriminate.
      * apply paints_ext with (2 := Hp). intros n Hin. unfold step_color, color_in. rewrite (Hext _ _ (Hc n Hin)). reflexivity.
    + destruct (placement_proof _ _ _ _ _ _ _ _ _ _ _ Hn E1) as (_ & _ & _ & col & Hc & Hp & _).
      split.
      * intros n Hin Hq. specialize (Hc n Hin). rewrite Hq in Hc. rewrite (Hext _ _ Hc). discriminate.
      * apply paints_ext with (2 := Hp). intros n Hin. specialize (Hc n Hin). unfold step_color. destruct (q n); [|exact Hc].
        unfold color_in. rewrite (Hext _ _ Hc). reflexivity.
Qed.

Lemma session_proof rnd fuel os p ca : distinct ca -> taken ca p -> Forall (fun o => exists nss, names_of (step_log o) nss) os ->
  exists col shown, (forall n m, In n shown -> In m shown -> col n = col m -> n = m) /\
    (forall n c, get ca n = Some c -> In n shown /\ col n = c) /\
    forall i o d nss, nth_error os i = Some o -> names_of (step_log o) nss -> nth_error (session rnd fuel os (p, ca)) i = Some (Ok d) ->
      (forall n, In n (concat nss) -> step_shows o n = true -> In n shown) /\
      paints (step_color o col) (fst (step_scales o)) (snd (step_scales o)) nss (fst (fst d)).
Proof.
  intros Hd Ht Hall. destruct (session_inv rnd fuel os (p, ca) Hall) as (s' & Hg & Hs).
  destruct (grows_good _ _ Hg Hd Ht) as [Hd' _]. exists (color_in (snd s')), (dkeys (snd s')).
  split; [|split].
  - intros n m Hn Hm E. apply dget_Some_key with (eqd := str_eq_dec) in Hn. apply dget_Some_key with (eqd := str_eq_dec) in Hm.
    destruct Hn as (c & Hn). destruct Hm as (c' & Hm). unfold color_in in E. rewrite Hn, Hm in E. subst c'. apply (Hd' n m c Hn Hm).
  - intros n c Hn. destruct Hg as (_ & Hext & _). cbn [snd] in Hext. pose proof (Hext _ _ Hn) as E. split.
    + apply dget_Some_key with (eqd := str_eq_dec). eauto.
    + unfold color_in. rewrite E. reflexivity.
  - intros i o d nss Hi Hn Hd0. destruct (Hs i o d nss Hi Hn Hd0) as [A B]. split; [|exact B].
    intros n Hin Hq. apply dget_Some_key with (eqd := str_eq_dec). specialize (A n Hin Hq). destruct (get (snd s') n); [eauto|congruence].
Qed.

(** *** The histogram *)
Lemma histogram_proof rnd fuel {F} (es : list (pystr * F)) : forall x p p' r, histogram_bars rnd fuel es x p = (p', r) ->
  incl (used p) (used p') /\
  match r with
  | Ok bs => map fst bs = map fst es /\ NoDup (map (fun b => snd (snd b)) bs) /\
      (forall b, In b bs -> ~ In (CHex (snd (snd b))) (used p) /\ In (CHex (snd (snd b))) (used p')) /\
      forall i n e, nth_error es i = Some (n, e) -> exists c, nth_error bs i = Some (n, (x + N.of_nat i, e, c))%N
  | Err e => e = Diverges \/ (e = OverflowError /\ N.of_nat (length (used p')) = (256 ^ 3)%N)
  end.
Proof.
  induction es as [|[n e] es IH]; intros x p p' r H; cbn [histogram_bars] in H.
  - injection H as <- <-. split; [apply incl_refl|]. split; [reflexivity|]. split; [constructor|]. split; [intros b []|]. intros [|i] n e Hi; discriminate.
  - unfold sbind in H. destruct (next_color rnd fuel p) as [p1 [c|ex]] eqn:En.
    + destruct (next_cases _ _ _ _ _ En) as [Hni Hu]. destruct (histogram_bars rnd fuel es (x + 1) p1) as [p2 r2] eqn:E2.
      destruct (IH _ _ _ _ E2) as [Hincl Hr]. rewrite Hu in Hincl.
      assert (Hip : incl (used p) (used p')).
      { destruct r2; injection H as <- <-; intros y Hy; apply Hincl; right; exact Hy. }
      split; [exact Hip|]. destruct r2 as [bs|ex]; injection H as <- <-.
      * destruct Hr as (Hm & Hnd & Hin & Hnth). cbn [map fst snd]. split; [rewrite Hm; reflexivity|]. split; [|split].
        -- constructor; [|exact Hnd]. intros Hc. apply in_map_iff in Hc. destruct Hc as (b & Eb & Hb). destruct (Hin b Hb) as [Hni' _].
           apply Hni'. rewrite Eb, Hu. left. reflexivity.
        -- intros b [<-|Hb].
           ++ cbn [snd]. split; [exact Hni|]. apply Hincl. left. reflexivity.
           ++ destruct (Hin b Hb) as [A B]. split; [|exact B]. intros Hx. apply A. rewrite Hu. right. exact Hx.
        -- intros [|i] m e' Hi; cbn [nth_error] in *.
           ++ injection Hi as <- <-. exists c. rewrite N.add_0_r. reflexivity.
           ++ destruct (Hnth i m e' Hi) as (c' & Hc'). exists c'. rewrite Hc'. do 3 f_equal. f_equal. lia.
      * exact Hr.
    + injection H as <- <-. split; [rewrite (next_cases _ _ _ _ _ En); apply incl_refl|]. exact (next_err _ _ _ _ _ En).
Qed.

(** *** Enough colours are enough *)
Lemma remove_length_lt (x : pystr) l : In x l -> length (remove str_eq_dec x l) < length l.
Proof. intros H. apply remove_length_lt. exact H. Qed.
Lemma picks_fair rnd : fair rnd -> forall ns D p ca news,
  (forall n, In n ns -> get D n <> None \/ get ca n <> None \/ In n news) ->
  (N.of_nat (length (used p) + length news) <= 256 ^ 3)%N ->
  exists f0 s' D', forall f, f0 <= f -> picks (lookup0 rnd f) ns D (p, ca) = (s', Ok D').
Proof.
  intros Hf. induction ns as [|n ns IH]; intros D p ca news Hn Hlen.
  - exists 0, (p, ca), D. reflexivity.
  - cbn [picks]. unfold pick. destruct (get D n) as [c|] eqn:Ed.
    + destruct (IH D p ca news) as (f0 & s' & D' & H); [intros m Hm; apply Hn; right; exact Hm|exact Hlen|].
      exists f0, s', D'. intros f Hle. unfold sbind, sret. cbn [snd]. apply H, Hle.
    + destruct (get ca n) as [c|] eqn:Ec.
      * destruct (IH (dset str_eq_dec D n c) p (dset str_eq_dec ca n c) news) as (f0 & s' & D' & H).
        { intros m Hm. rewrite !dget_dset. destruct (str_eq_dec n m); [left; discriminate|]. apply Hn. right. exact Hm. }
        { exact Hlen. }
        exists f0, s', D'. intros f Hle. unfold sbind, sret, lookup0, cached_or. cbn [fst snd]. rewrite Ec. cbn [fst snd]. apply H, Hle.
      * assert (Hin : In n news) by (destruct (Hn n (or_introl eq_refl)) as [H|[H|H]]; congruence || exact H).
        pose proof (remove_length_lt n news Hin) as Hrl.
        destruct (next_free rnd p Hf) as (f1 & c & p1 & Hni & Hu & Hn1).
        { revert Hlen. generalize (256 ^ 3)%N. intros; lia. }
        destruct (IH (dset str_eq_dec D n c) p1 (dset str_eq_dec ca n c) (remove str_eq_dec n news)) as (f0 & s' & D' & H).
        { intros m Hm. rewrite !dget_dset. destruct (str_eq_dec n m) as [|Hne]; [left; discriminate|].
          destruct (Hn m (or_intror Hm)) as [H|[H|H]]; auto. right. right. apply in_in_remove; [congruence|exact H]. }
        { rewrite Hu. cbn [length]. revert Hlen. generalize (256 ^ 3)%N. intros; lia. }
        exists (Nat.max f1 f0), s', D'. intros f Hle. unfold sbind, sret, lookup0, cached_or. cbn [fst snd]. rewrite Ec, Hn1 by lia. cbn [fst snd]. apply H. lia.
Qed.
Lemma firsts_In l n : In n l -> In n (firsts l).
Proof.
  induction l as [|x l IH]; [auto|]. intros [->|H]; [left; reflexivity|]. cbn [firsts].
  destruct (str_eq_dec n x) as [->|Hne]; [left; reflexivity|]. right. apply in_in_remove; auto.
Qed.
Lemma enough_proof rnd log ws hs p ca nss : fair rnd -> names_of log nss -> nss <> [] -> ws <> 0%N -> hs <> 0%N ->
  (N.of_nat (length (used p) + length (firsts (concat nss))) <= 256 ^ 3)%N ->
  exists f0 s' d, forall f, f0 <= f -> draw_traces_diversity_diagram rnd f log ws hs (p, ca) = (s', Ok d).
Proof.
  intros Hf Hn Hne Hw Hh Hlen.
  destruct (picks_fair rnd Hf (concat nss) [] p ca (firsts (concat nss))) as (f0 & s' & D' & H).
  { intros n Hin. right. right. apply firsts_In, Hin. }
  { exact Hlen. }
  destruct (log_axes (map (@length pystr) nss) ws hs) as [a|e] eqn:Ea.
  2:{ exfalso. apply bad_axes_of in Ea. destruct Ea as [(_ & [E|E])|(_ & E)]; congruence. }
  exists f0, s', ((rows ws hs D' nss 0, rows_legend ws hs D' nss 0 []), a).
  intros f Hle. unfold draw_traces_diversity_diagram. rewrite (draw_like_picks _ _ _ _ _ _ Hn). fold (lookup0 rnd f). rewrite H by exact Hle.
  rewrite Ea. reflexivity.
Qed.
