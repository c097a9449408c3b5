From Coq Require Import Permutation Sorted.
From Verif Require Import Py PyFacts ReplayModel RInfoModel RInfoSpec ITreeModel ITreeSpec.

(* ---- sorting ---- *)
Lemma iv_insert_perm x l : Permutation (iv_insert x l) (x :: l).
Proof.
  induction l as [|y l IH]; cbn; [reflexivity|]. destruct (iv_left x <=? iv_left y)%Z; [reflexivity|].
  rewrite IH. apply perm_swap.
Qed.
Lemma iv_sort_perm l : Permutation (iv_sort l) l.
Proof. induction l as [|x l IH]; cbn; [reflexivity|]. rewrite iv_insert_perm. constructor. exact IH. Qed.
Lemma iv_insert_sorted x l : Sorted (fun a b => iv_left a <= iv_left b)%Z l -> Sorted (fun a b => iv_left a <= iv_left b)%Z (iv_insert x l).
Proof.
  induction 1 as [|y l S IH H]; cbn; [repeat constructor|]. destruct (Z.leb_spec (iv_left x) (iv_left y)).
  - constructor; [constructor; assumption|]. constructor. lia.
  - constructor; [exact IH|]. destruct l as [|z l]; cbn; [constructor; lia|]. inversion H; subst.
    destruct (Z.leb_spec (iv_left x) (iv_left z)); constructor; lia.
Qed.
Lemma iv_sort_sorted l : Sorted (fun a b => iv_left a <= iv_left b)%Z (iv_sort l).
Proof. induction l as [|x l IH]; cbn; [constructor|]. apply iv_insert_sorted, IH. Qed.
Lemma z_insert_perm x l : Permutation (z_insert x l) (x :: l).
Proof.
  induction l as [|y l IH]; cbn; [reflexivity|]. destruct (x <=? y)%Z; [reflexivity|]. rewrite IH. apply perm_swap.
Qed.
Lemma z_sort_perm l : Permutation (z_sort l) l.
Proof. induction l as [|x l IH]; cbn; [reflexivity|]. rewrite z_insert_perm. constructor. exact IH. Qed.
Lemma z_insert_sorted x l : Sorted Z.le l -> Sorted Z.le (z_insert x l).
Proof.
  induction 1 as [|y l S IH H]; cbn; [repeat constructor|]. destruct (Z.leb_spec x y).
  - constructor; [constructor; assumption|]. constructor. lia.
  - constructor; [exact IH|]. destruct l as [|z l]; cbn; [constructor; lia|]. inversion H; subst.
    destruct (Z.leb_spec x z); constructor; lia.
Qed.
Lemma z_sort_sorted l : Sorted Z.le (z_sort l).
Proof. induction l as [|x l IH]; cbn; [constructor|]. apply z_insert_sorted, IH. Qed.

Lemma iv_sort_In l x : In x (iv_sort l) <-> In x l.
Proof. split; apply Permutation_in; [|symmetry]; apply iv_sort_perm. Qed.
Lemma iv_sort_length l : length (iv_sort l) = length l.
Proof. apply Permutation_length, iv_sort_perm. Qed.

(* ---- the parts of a node ---- *)
Definition lefts (c : Z) (l : list interval) := filter (fun i => iv_right i <? c)%Z l.
Definition rights (c : Z) (l : list interval) := filter (fun i => negb (iv_right i <? c) && (iv_left i >? c))%Z l.
Definition owns (c : Z) (l : list interval) := filter (fun i => negb (iv_right i <? c) && negb (iv_left i >? c))%Z l.

Lemma lefts_In c l i : In i (lefts c l) <-> In i l /\ (iv_right i < c)%Z.
Proof. unfold lefts. rewrite filter_In, Z.ltb_lt. reflexivity. Qed.
Lemma rights_In c l i : In i (rights c l) <-> In i l /\ (c <= iv_right i)%Z /\ (c < iv_left i)%Z.
Proof. unfold rights. rewrite filter_In, andb_true_iff, negb_true_iff, Z.ltb_ge, Z.gtb_lt. reflexivity. Qed.
Lemma owns_In c l i : In i (owns c l) <-> In i l /\ (c <= iv_right i)%Z /\ (iv_left i <= c)%Z.
Proof. unfold owns. rewrite filter_In, andb_true_iff, !negb_true_iff, Z.ltb_ge. rewrite Z.gtb_ltb, Z.ltb_ge. reflexivity. Qed.
Lemma parts_length c l : length (lefts c l) + length (rights c l) + length (owns c l) = length l.
Proof.
  induction l as [|i l IH]; [reflexivity|]. unfold lefts, rights, owns in *. cbn [filter length].
  destruct (iv_right i <? c)%Z; cbn [negb andb]; [cbn [length]; lia|]. destruct (iv_left i >? c)%Z; cbn [negb length]; lia.
Qed.

Definition the_center (l : list interval) (c : Z) : Prop := exists m, nth_error (iv_sort l) (Nat.div2 (length (iv_sort l))) = Some m /\ c = iv_left m.

Lemma middle_exists {A} (l : list A) : l <> [] -> exists m, nth_error l (Nat.div2 (length l)) = Some m.
Proof.
  intros H. destruct (nth_error l (Nat.div2 (length l))) eqn:E; [eauto|]. apply nth_error_None in E.
  destruct l; [congruence|]. pose proof (Nat.lt_div2 (length (a :: l))). cbn [length] in *. lia.
Qed.

(** One step of the loop. *)
Lemma it_build_step fuel pc l queue nodes bounds m nodes' :
  nth_error (iv_sort l) (Nat.div2 (length (iv_sort l))) = Some m ->
  (match pc with Some (p, o) => set_at nodes p (set_child o (length nodes)) | None => Ok nodes end) = Ok nodes' ->
  it_build (S fuel) ((pc, l) :: queue) nodes bounds =
  let c := iv_left m in let s := iv_sort l in
  it_build fuel (queue ++ (if length (lefts c s) =? 0 then [] else [(Some (length nodes, OLeft), lefts c s)])
                       ++ (if length (rights c s) =? 0 then [] else [(Some (length nodes, ORight), rights c s)]))
    (nodes' ++ [mkNode None None c (owns c s)]) (bounds ++ flat_map (fun i => [iv_left i; iv_right i]) s).
Proof.
  intros M N. cbn [it_build]. rewrite M. rewrite N. cbn [bind]. cbv zeta. fold (lefts (iv_left m) (iv_sort l)). fold (rights (iv_left m) (iv_sort l)).
  fold (owns (iv_left m) (iv_sort l)). f_equal.
  destruct (length (lefts (iv_left m) (iv_sort l)) =? 0), (length (rights (iv_left m) (iv_sort l)) =? 0); cbn [app]; rewrite ?app_nil_r, <- ?app_assoc; reflexivity.
Qed.

Lemma set_at_ok {A} (l : list A) i f : i < length l -> exists l', set_at l i f = Ok l' /\ length l' = length l /\
  forall j, nth_error l' j = if j =? i then option_map f (nth_error l j) else nth_error l j.
Proof.
  intros H. unfold set_at. destruct (nth_error l i) as [x|] eqn:E; [|apply nth_error_None in E; lia]. eexists. split; [reflexivity|].
  assert (L : length (firstn i l) = i) by (rewrite firstn_length; lia). split.
  - rewrite app_length, L. cbn [length]. rewrite skipn_length. lia.
  - intros j. destruct (Nat.eqb_spec j i) as [->|Hj].
    + rewrite nth_error_app2, L, Nat.sub_diag by lia. rewrite E. reflexivity.
    + destruct (Nat.lt_ge_cases j i).
      * rewrite nth_error_app1 by lia. rewrite <- (firstn_skipn i l) at 2. rewrite nth_error_app1 by lia. reflexivity.
      * rewrite nth_error_app2, L by lia. destruct (j - i) as [|k] eqn:Ek; [lia|]. cbn [nth_error].
        rewrite <- (firstn_skipn (S i) l) at 2. assert (L' : length (firstn (S i) l) = S i) by (rewrite firstn_length; lia).
        rewrite nth_error_app2, L' by lia. f_equal. lia.
Qed.

(* ---- the invariant ---- *)
Definition part (o : orientation) (c : Z) (l : list interval) := match o with OLeft => lefts c l | ORight => rights c l end.
Definition child (o : orientation) (n : inode) := match o with OLeft => nd_left n | ORight => nd_right n end.
(** [S i] are the intervals below node i. *)
Definition good (S : nat -> list interval) (queue : list entry_t) (nodes : list inode) : Prop :=
  (forall i n, nth_error nodes i = Some n -> nd_intervals n = owns (nd_center n) (S i) /\
     (exists x, In x (S i) /\ iv_left x = nd_center n) /\
     forall o, match child o n with
               | Some k => i < k < length nodes /\ (forall x, In x (S k) <-> In x (part o (nd_center n) (S i)))
               | None => part o (nd_center n) (S i) = [] \/ In (Some (i, o), part o (nd_center n) (S i)) queue
               end) /\
  (forall p o l, In (Some (p, o), l) queue -> exists n, nth_error nodes p = Some n /\ l = part o (nd_center n) (S p)) /\
  (forall e, In e queue -> snd e <> []).

Lemma good_step S queue nodes pc l m nodes' :
  good S ((pc, l) :: queue) nodes ->
  nth_error (iv_sort l) (Nat.div2 (length (iv_sort l))) = Some m ->
  (match pc with Some (p, o) => set_at nodes p (set_child o (length nodes)) | None => Ok nodes end) = Ok nodes' ->
  let c := iv_left m in let s := iv_sort l in
  good (fun i => if i =? length nodes then s else S i)
       (queue ++ (if length (lefts c s) =? 0 then [] else [(Some (length nodes, OLeft), lefts c s)])
              ++ (if length (rights c s) =? 0 then [] else [(Some (length nodes, ORight), rights c s)]))
       (nodes' ++ [mkNode None None c (owns c s)]).
Proof.
  intros (G1 & G2 & G3) M N c s.
  set (S' := fun i => if i =? length nodes then s else S i).
  assert (Old : forall i, i < length nodes -> S' i = S i).
  { intros i Hi. unfold S'. destruct (Nat.eqb_spec i (length nodes)); [lia|reflexivity]. }
  assert (New : S' (length nodes) = s) by (unfold S'; rewrite Nat.eqb_refl; reflexivity).
  set (more := (if length (lefts c s) =? 0 then [] else [(Some (length nodes, OLeft), lefts c s)])
            ++ (if length (rights c s) =? 0 then [] else [(Some (length nodes, ORight), rights c s)])).
  assert (Len : length nodes' = length nodes /\
     forall j, nth_error nodes' j = match pc with
        | Some (p, o) => if j =? p then option_map (set_child o (length nodes)) (nth_error nodes j) else nth_error nodes j
        | None => nth_error nodes j end).
  { destruct pc as [[p o]|].
    - destruct (G2 p o l (or_introl eq_refl)) as (n & En & _).
      assert (Hp : p < length nodes) by (apply nth_error_Some; congruence).
      destruct (set_at_ok nodes p (set_child o (length nodes)) Hp) as (l' & E & L & F). rewrite N in E. injection E as ->. split; assumption.
    - injection N as <-. split; reflexivity. }
  destruct Len as [Len Nth].
  assert (More : forall e, In e more <-> (e = (Some (length nodes, OLeft), lefts c s) /\ lefts c s <> []) \/
                                        (e = (Some (length nodes, ORight), rights c s) /\ rights c s <> [])).
  { intros e. unfold more. rewrite in_app_iff.
    destruct (Nat.eqb_spec (length (lefts c s)) 0) as [E1|E1], (Nat.eqb_spec (length (rights c s)) 0) as [E2|E2];
      try apply length_zero_iff_nil in E1; try apply length_zero_iff_nil in E2.
    - rewrite E1, E2. cbn. tauto.
    - rewrite E1. assert (rights c s <> []) by (intros Z; rewrite Z in E2; cbn in E2; lia). cbn. intuition congruence.
    - rewrite E2. assert (lefts c s <> []) by (intros Z; rewrite Z in E1; cbn in E1; lia). cbn. intuition congruence.
    - assert (rights c s <> []) by (intros Z; rewrite Z in E2; cbn in E2; lia). assert (lefts c s <> []) by (intros Z; rewrite Z in E1; cbn in E1; lia).
      cbn. intuition congruence. }
  clearbody more. split; [|split].
  - intros i n Hn. rewrite app_length, Len. cbn [length]. destruct (Nat.lt_ge_cases i (length nodes)) as [Hi|Hi].
    + rewrite nth_error_app1 in Hn by lia. rewrite Nth in Hn. rewrite (Old i Hi).
      assert (Keep : forall n0, nth_error nodes i = Some n0 -> n = n0 -> (forall o0, ~ (pc = Some (i, o0) /\ child o0 n = None)) ->
        nd_intervals n = owns (nd_center n) (S i) /\ (exists x, In x (S i) /\ iv_left x = nd_center n) /\
        forall o, match child o n with
                  | Some k => i < k < length nodes + 1 /\ (forall x, In x (S' k) <-> In x (part o (nd_center n) (S i)))
                  | None => part o (nd_center n) (S i) = [] \/ In (Some (i, o), part o (nd_center n) (S i)) (queue ++ more)
                  end).
      { intros n0 E0 -> Hpc. destruct (G1 i n0 E0) as (A & B & C). split; [exact A|]. split; [exact B|]. intros o. specialize (C o). specialize (Hpc o).
        destruct (child o n0) as [k|].
        - destruct C as [C1 C2]. split; [lia|]. rewrite Old by lia. exact C2.
        - destruct C as [C|[C|C]]; [left; exact C| |right; apply in_app_iff; left; exact C].
          exfalso. apply Hpc. injection C as -> _. auto. }
      destruct pc as [[p o]|].
      * destruct (Nat.eqb_spec i p) as [->|Hip].
        -- destruct (nth_error nodes p) as [n0|] eqn:E0; [|discriminate]. cbn in Hn. injection Hn as <-.
           destruct (G1 p n0 E0) as (A & B & C). destruct (G2 p o l (or_introl eq_refl)) as (n1 & E1 & El). rewrite E0 in E1. injection E1 as <-.
           assert (Ctr : nd_center (set_child o (length nodes) n0) = nd_center n0) by (destruct o; reflexivity).
           assert (Ivs : nd_intervals (set_child o (length nodes) n0) = nd_intervals n0) by (destruct o; reflexivity).
           rewrite Ctr, Ivs. split; [exact A|]. split; [exact B|]. intros o'. specialize (C o').
           assert (Dec : o' = o \/ o' <> o) by (destruct o', o; auto; right; congruence). destruct Dec as [->|Ho].
           ++ assert (Ch : child o (set_child o (length nodes) n0) = Some (length nodes)) by (destruct o; reflexivity). rewrite Ch.
              split; [lia|]. intros x. rewrite New. unfold s. rewrite iv_sort_In, El. reflexivity.
           ++ assert (Ch : child o' (set_child o (length nodes) n0) = child o' n0) by (destruct o, o'; congruence || reflexivity). rewrite Ch.
              destruct (child o' n0) as [k|].
              ** destruct C as [C1 C2]. split; [lia|]. rewrite Old by lia. exact C2.
              ** destruct C as [C|[C|C]]; [left; exact C| |right; apply in_app_iff; left; exact C]. injection C as E _. congruence.
        -- apply (Keep n Hn eq_refl). intros o0 [E _]. injection E as E _. congruence.
      * apply (Keep n Hn eq_refl). intros o0 [E _]. discriminate.
    + rewrite nth_error_app2, Len in Hn by lia. destruct (i - length nodes) as [|k] eqn:Ek; [|destruct k; discriminate].
      cbn in Hn. injection Hn as <-. assert (i = length nodes) by lia. subst i. rewrite New. cbn [nd_intervals nd_center]. split; [reflexivity|]. split.
      * exists m. split; [apply nth_error_In in M; exact M|reflexivity].
      * intros o. assert (Ch : child o (mkNode None None c (owns c s)) = None) by (destruct o; reflexivity). rewrite Ch.
        destruct o; cbn [part].
        -- assert (D : lefts c s = [] \/ lefts c s <> []) by (destruct (lefts c s); [left; reflexivity|right; discriminate]).
           destruct D as [D|D]; [left; exact D|]. right. apply in_app_iff. right. apply More. left. split; [reflexivity|exact D].
        -- assert (D : rights c s = [] \/ rights c s <> []) by (destruct (rights c s); [left; reflexivity|right; discriminate]).
           destruct D as [D|D]; [left; exact D|]. right. apply in_app_iff. right. apply More. right. split; [reflexivity|exact D].
  - intros p o l0 H. apply in_app_iff in H. destruct H as [H|H].
    + destruct (G2 p o l0 (or_intror H)) as (n & En & El).
      assert (Hp : p < length nodes) by (apply nth_error_Some; congruence).
      rewrite nth_error_app1 by lia. rewrite Nth. rewrite Old by lia.
      destruct pc as [[p' o']|].
      * rewrite En. destruct (p =? p'); cbn [option_map].
        -- eexists. split; [reflexivity|]. destruct o'; exact El.
        -- exists n. auto.
      * exists n. auto.
    + apply More in H. exists (mkNode None None c (owns c s)). rewrite nth_error_app2, Len by (destruct H as [[H _]|[H _]]; injection H as -> _ _; lia).
      destruct H as [[H _]|[H _]]; injection H as -> -> ->; rewrite Nat.sub_diag; split; try reflexivity; cbn [nd_center part]; rewrite New; reflexivity.
  - intros e H. apply in_app_iff in H. destruct H as [H|H]; [apply G3; right; exact H|]. apply More in H. destruct H as [[-> H]|[-> H]]; exact H.
Qed.

(* ---- when building ends ---- *)
Definition weight (queue : list entry_t) : nat := list_sum (map (fun e => length (snd e)) queue).

Lemma step_ok S queue nodes pc l : good S ((pc, l) :: queue) nodes ->
  exists m nodes', nth_error (iv_sort l) (Nat.div2 (length (iv_sort l))) = Some m /\
    (match pc with Some (p, o) => set_at nodes p (set_child o (length nodes)) | None => Ok nodes end) = Ok nodes' /\ In m l.
Proof.
  intros (_ & G2 & G3). assert (Hl : iv_sort l <> []).
  { intros E. apply (G3 _ (or_introl eq_refl)). cbn [snd]. apply length_zero_iff_nil. rewrite <- iv_sort_length, E. reflexivity. }
  destruct (middle_exists _ Hl) as (m & M). exists m.
  assert (Hm : In m l) by (apply iv_sort_In; eapply nth_error_In; exact M).
  destruct pc as [[p o]|]; [|exists nodes; auto].
  destruct (G2 p o l (or_introl eq_refl)) as (n & En & _).
  assert (Hp : p < length nodes) by (apply nth_error_Some; congruence).
  destruct (set_at_ok nodes p (set_child o (length nodes)) Hp) as (l' & E & _). exists l'. auto.
Qed.

Lemma weight_app a b : weight (a ++ b) = weight a + weight b.
Proof. unfold weight. rewrite map_app, list_sum_app. reflexivity. Qed.

Lemma all_queue_proper_step (P : interval -> Prop) (queue : list entry_t) pc l c s nodes :
  (forall e x, In e ((pc, l) :: queue) -> In x (snd e) -> P x) -> s = iv_sort l ->
  forall e x, In e (queue ++ (if length (lefts c s) =? 0 then [] else [(Some (length (A := inode) nodes, OLeft), lefts c s)])
                       ++ (if length (rights c s) =? 0 then [] else [(Some (length nodes, ORight), rights c s)])) -> In x (snd e) -> P x.
Proof.
  intros H -> e x He Hx. apply in_app_iff in He. destruct He as [He|He]; [apply (H e x); [right; exact He|exact Hx]|].
  apply (H (pc, l) x (or_introl eq_refl)). cbn [snd]. apply iv_sort_In. apply in_app_iff in He. destruct He as [He|He].
  - destruct (length (lefts c (iv_sort l)) =? 0); [destruct He|]. destruct He as [<-|[]]. cbn [snd] in Hx. apply lefts_In in Hx. tauto.
  - destruct (length (rights c (iv_sort l)) =? 0); [destruct He|]. destruct He as [<-|[]]. cbn [snd] in Hx. apply rights_In in Hx. tauto.
Qed.

Lemma build_ends fuel : forall S queue nodes bounds, weight queue <= fuel -> good S queue nodes ->
  (forall e x, In e queue -> In x (snd e) -> proper x) ->
  exists S' t, it_build fuel queue nodes bounds = Ok t /\ good S' [] (it_nodes t) /\
    (nodes <> [] -> S' 0 = S 0 /\ it_nodes t <> []) /\
    (forall x, In x (it_boundaries t) <-> In x bounds \/ exists e i, In e queue /\ In i (snd e) /\ (x = iv_left i \/ x = iv_right i)) /\
    (nodes = [] -> forall pc l q, queue = (pc, l) :: q -> S' 0 = iv_sort l /\ it_nodes t <> []).
Proof.
  induction fuel as [|fuel IH]; intros S queue nodes bounds W G P.
  - destruct queue as [|[pc l] queue].
    + exists S, (mkTree nodes bounds). split; [reflexivity|]. split; [exact G|]. split; [auto|]. split; [cbn; intros x; split; [auto|intros [H|(e & _ & [] & _)]; exact H]|intros _ pc l q E; discriminate].
    + exfalso. destruct G as (_ & _ & G3). apply (G3 (pc, l)); [left; reflexivity|]. cbn [snd]. apply length_zero_iff_nil.
      unfold weight in W. cbn in W. lia.
  - destruct queue as [|[pc l] queue].
    + exists S, (mkTree nodes bounds). split; [reflexivity|]. split; [exact G|]. split; [auto|]. split; [cbn; intros x; split; [auto|intros [H|(e & _ & [] & _)]; exact H]|intros _ pc l q E; discriminate].
    + destruct (step_ok S queue nodes pc l G) as (m & nodes' & M & N & Hm).
      pose proof (it_build_step fuel pc l queue nodes bounds m nodes' M N) as St. cbv zeta in St.
      pose proof (good_step S queue nodes pc l m nodes' G M N) as G'. cbv zeta in G'.
      set (c := iv_left m) in *. set (s := iv_sort l) in *.
      set (queue' := queue ++ (if length (lefts c s) =? 0 then [] else [(Some (length nodes, OLeft), lefts c s)]) ++ (if length (rights c s) =? 0 then [] else [(Some (length nodes, ORight), rights c s)])) in *.
      set (nodes'' := nodes' ++ [mkNode None None c (owns c s)]) in *. set (S1 := fun i => if i =? length nodes then s else S i) in *.
      assert (Wl : weight queue' <= fuel).
      { unfold queue'. rewrite weight_app. unfold weight in W at 1. cbn [map snd] in W. change (length l + weight queue <= Datatypes.S fuel) in W.
        assert (Ho : 0 < length (owns c s)).
        { assert (In m (owns c s)).
          { apply owns_In. split; [apply iv_sort_In; exact Hm|]. pose proof (P (pc, l) m (or_introl eq_refl) Hm) as Pm. unfold proper in Pm. unfold c. lia. }
          destruct (owns c s); [destruct H|cbn; lia]. }
        pose proof (parts_length c s) as PL. unfold s in PL at 4. rewrite iv_sort_length in PL.
        rewrite weight_app. assert (X : forall k o v, weight (if length v =? 0 then [] else [(Some (k, o), v)] : list entry_t) = length v).
        { intros k o v. destruct (Nat.eqb_spec (length v) 0) as [E|E]; unfold weight; cbn; lia. }
        rewrite !X. lia. }
      assert (P' : forall e x, In e queue' -> In x (snd e) -> proper x) by (apply (all_queue_proper_step proper queue pc l c s nodes P eq_refl)).
      assert (Nn : nodes'' <> []) by (unfold nodes''; destruct nodes'; discriminate).
      destruct (IH S1 queue' nodes'' (bounds ++ flat_map (fun i => [iv_left i; iv_right i]) s) Wl G' P') as (S2 & t & E & G2 & K & B & _).
      exists S2, t. split; [exact (eq_trans St E)|]. split; [exact G2|]. destruct (K Nn) as [K1 K2]. split; [|split].
      * intros Hn. split; [|exact K2]. rewrite K1. unfold S1. destruct (Nat.eqb_spec 0 (length nodes)) as [e|e]; [|reflexivity]. destruct nodes; [congruence|discriminate].
      * intros x. rewrite B, in_app_iff. rewrite in_flat_map. split.
        -- intros [[H|(i & Hi & H)]|(e & i & He & Hi & H)].
           ++ left; exact H.
           ++ right. exists (pc, l), i. split; [left; reflexivity|]. split; [apply iv_sort_In; exact Hi|]. cbn in H. intuition.
           ++ assert (Q : exists e, In e ((pc, l) :: queue) /\ In i (snd e)).
              { apply (all_queue_proper_step (fun i => exists e, In e ((pc, l) :: queue) /\ In i (snd e)) queue pc l c s nodes) with (e := e); [|reflexivity|exact He|exact Hi].
                intros e0 x0 H1 H2. exists e0. auto. }
              destruct Q as (e0 & Q1 & Q2). right. exists e0, i. auto.
        -- intros [H|(e & i & [<-|He] & Hi & H)].
           ++ left; left; exact H.
           ++ left; right. exists i. split; [apply iv_sort_In; exact Hi|]. cbn. intuition.
           ++ right. exists e, i. split; [unfold queue'; apply in_app_iff; left; exact He|]. auto.
      * intros Hn pc0 l0 q E0. injection E0 as <- <- <-. split; [|exact K2]. rewrite K1. unfold S1. rewrite Hn. reflexivity.
Qed.

(** An interval with ends turned round goes on for ever. *)
Lemma build_runs fuel : forall S queue nodes bounds, good S queue nodes ->
  (exists e x, In e queue /\ In x (snd e) /\ ~ proper x) -> it_build fuel queue nodes bounds = Err Diverges.
Proof.
  induction fuel as [|fuel IH]; intros S queue nodes bounds G (e & x & He & Hx & Px).
  - destruct queue as [|[pc l] queue]; [destruct He|]. reflexivity.
  - destruct queue as [|[pc l] queue]; [destruct He|].
    destruct (step_ok S queue nodes pc l G) as (m & nodes' & M & N & Hm).
    etransitivity; [exact (it_build_step fuel pc l queue nodes bounds m nodes' M N)|]. cbv zeta.
    pose proof (good_step S queue nodes pc l m nodes' G M N) as G'. cbv zeta in G'. eapply IH; [exact G'|].
    set (c := iv_left m) in *. set (s := iv_sort l) in *.
    destruct He as [<-|He]; [|exists e, x; split; [apply in_app_iff; left; exact He|auto]].
    cbn [snd] in Hx. unfold proper in Px. destruct (Z.lt_ge_cases (iv_right x) c) as [H|H].
    + assert (I : In x (lefts c s)) by (apply lefts_In; split; [apply iv_sort_In; exact Hx|exact H]).
      exists (Some (length nodes, OLeft), lefts c s), x. split; [|split; [exact I|exact Px]].
      apply in_app_iff. right. apply in_app_iff. left. destruct (lefts c s); [destruct I|left; reflexivity].
    + assert (I : In x (rights c s)) by (apply rights_In; split; [apply iv_sort_In; exact Hx|lia]).
      exists (Some (length nodes, ORight), rights c s), x. split; [|split; [exact I|exact Px]].
      apply in_app_iff. right. apply in_app_iff. right. destruct (rights c s); [destruct I|left; reflexivity].
Qed.

Lemma good_start l : l <> [] -> good (fun _ => []) [(None, l)] [].
Proof.
  intros H. split; [|split].
  - intros [|i] n E; discriminate.
  - intros p o l0 [E|[]]. discriminate.
  - intros e [<-|[]]. exact H.
Qed.

(** [t] holds the intervals of [l]. *)
Definition holds (t : itree) (l : list interval) : Prop :=
  exists S, good S [] (it_nodes t) /\ (forall x, In x (S 0) <-> In x l) /\ it_nodes t <> [] /\
    (forall x, In x (it_boundaries t) <-> exists i, In i l /\ (x = iv_left i \/ x = iv_right i)).

Lemma new_ok l fuel : l <> [] -> (forall i, In i l -> proper i) -> length l <= fuel -> exists t, it_new fuel l = Ok t /\ holds t l.
Proof.
  intros Hl P Hf. unfold it_new.
  destruct (build_ends fuel (fun _ => []) [(None, l)] [] []) as (S & t & E & G & _ & B & K).
  - unfold weight. cbn. lia.
  - apply good_start, Hl.
  - intros e x [<-|[]] Hx. apply P, Hx.
  - exists t. split; [exact E|]. exists S. destruct (K eq_refl None l [] eq_refl) as [K1 K2]. split; [exact G|]. split; [|split; [exact K2|]].
    + intros x. rewrite K1. apply iv_sort_In.
    + intros x. rewrite B. split.
      * intros [[]|(e & i & [<-|[]] & Hi & H)]. exists i. auto.
      * intros (i & Hi & H). right. exists (None, l), i. split; [left; reflexivity|]. auto.
Qed.

Lemma new_runs l fuel : (exists i, In i l /\ ~ proper i) -> it_new fuel l = Err Diverges.
Proof.
  intros (i & Hi & P). unfold it_new. eapply build_runs; [apply good_start; intros ->; destruct Hi|].
  exists (None, l), i. split; [left; reflexivity|]. auto.
Qed.

(** What came out does not depend on the fuel. *)
Lemma build_more fuel : forall queue nodes bounds r, it_build fuel queue nodes bounds = r -> r <> Err Diverges ->
  forall fuel', fuel <= fuel' -> it_build fuel' queue nodes bounds = r.
Proof.
  induction fuel as [|fuel IH]; intros queue nodes bounds r E H fuel' Hf; destruct queue as [|[pc l] queue].
  - cbn in E. subst r. destruct fuel'; reflexivity.
  - cbn in E. congruence.
  - cbn in E. subst r. destruct fuel'; reflexivity.
  - destruct fuel' as [|fuel']; [lia|]. cbn [it_build] in E |- *. revert E.
    destruct (nth_error (iv_sort l) (Nat.div2 (length (iv_sort l)))) as [m|]; [|auto]. cbv zeta.
    destruct (match pc with Some (p, o) => set_at nodes p (set_child o (length nodes)) | None => Ok nodes end); cbn [bind]; [|auto].
    intros E. eapply IH; [exact E|exact H|lia].
Qed.

(* ---- searching ---- *)
Lemma contains_iff i p : iv_contains i p = true <-> covers i p.
Proof. unfold iv_contains, covers. rewrite andb_true_iff, !Z.leb_le. reflexivity. Qed.
Lemma iv_add_In s i x : In x (iv_add s i) <-> In x s \/ x = i.
Proof.
  unfold iv_add. destruct (in_dec interval_eq_dec i s) as [H|H].
  - split; [auto|]. intros [?| ->]; assumption.
  - rewrite in_app_iff. cbn. intuition.
Qed.
Lemma iv_add_NoDup s i : NoDup s -> NoDup (iv_add s i).
Proof.
  intros N. unfold iv_add. destruct (in_dec interval_eq_dec i s) as [H|H]; [exact N|].
  apply (Permutation_NoDup (l := i :: s)); [apply Permutation_cons_append|]. constructor; assumption.
Qed.

Lemma search_proof S t : good S [] (it_nodes t) -> forall p k i acc fuel, length (it_nodes t) - i <= k -> i < length (it_nodes t) -> k <= fuel -> NoDup acc ->
  (forall x, In x (S i) -> proper x) ->
  exists found, it_search fuel t i p acc = Ok found /\ NoDup found /\
    forall x, In x found <-> In x acc \/ (In x (S i) /\ covers x p).
Proof.
  intros (G1 & _ & _) p. induction k as [|k IH]; intros i acc fuel Hk Hi Hf N P; [lia|].
  destruct fuel as [|fuel]; [lia|]. cbn [it_search].
  destruct (nth_error (it_nodes t) i) as [n|] eqn:En; [|apply nth_error_None in En; lia].
  destruct (G1 i n En) as (A & (m & Hm & Em) & C). clear G1.
  set (step := fun found i0 => bind _ _).
  (* what one child contributes *)
  set (below := fun x => (In x (lefts (nd_center n) (S i)) \/ In x (rights (nd_center n) (S i))) /\ covers x p).
  assert (Step : forall acc iv, NoDup acc -> exists acc', step acc iv = Ok acc' /\ NoDup acc' /\
            forall x, In x acc' <-> In x acc \/ (x = iv /\ covers x p) \/ below x).
  { clear acc N. intros acc iv N. unfold step.
    set (acc1 := if iv_contains iv p then iv_add acc iv else acc).
    assert (N1 : NoDup acc1) by (unfold acc1; destruct (iv_contains iv p); [apply iv_add_NoDup|]; exact N).
    assert (M1 : forall x, In x acc1 <-> In x acc \/ (x = iv /\ covers x p)).
    { intros x. unfold acc1. destruct (iv_contains iv p) eqn:E.
      - apply contains_iff in E. rewrite iv_add_In. intuition (subst; auto).
      - split; [auto|]. intros [H|[-> H]]; [exact H|]. apply contains_iff in H. congruence. }
    assert (L : exists acc2, match nd_left n with
               | Some child => if (p <? nd_center n)%Z then it_search fuel t child p acc1 else Ok acc1
               | None => Ok acc1 end = Ok acc2 /\ NoDup acc2 /\ forall x, In x acc2 <-> In x acc1 \/ (In x (lefts (nd_center n) (S i)) /\ covers x p)).
    { pose proof (C OLeft) as CL. cbn [child part] in CL. destruct (nd_left n) as [k'|].
      - destruct CL as [CL1 CL2]. destruct (Z.ltb_spec p (nd_center n)) as [Hp|Hp].
        + destruct (IH k' acc1 fuel) as (f & E1 & E2 & E3); [lia|lia|lia|exact N1|intros x Hx; apply CL2, lefts_In in Hx; apply P; tauto|]. exists f. split; [exact E1|]. split; [exact E2|].
          intros x. rewrite E3, CL2. reflexivity.
        + exists acc1. split; [reflexivity|]. split; [exact N1|]. intros x. split; [auto|]. intros [H|[H1 H2]]; [exact H|].
          apply lefts_In in H1. unfold covers in H2. lia.
      - exists acc1. split; [reflexivity|]. split; [exact N1|]. destruct CL as [CL|[]]. rewrite CL. cbn. tauto. }
    destruct L as (acc2 & E2 & N2 & M2). cbv zeta. fold acc1. rewrite E2. cbn [bind].
    assert (R : exists acc3, match nd_right n with
               | Some child => if (p >? nd_center n)%Z then it_search fuel t child p acc2 else Ok acc2
               | None => Ok acc2 end = Ok acc3 /\ NoDup acc3 /\ forall x, In x acc3 <-> In x acc2 \/ (In x (rights (nd_center n) (S i)) /\ covers x p)).
    { pose proof (C ORight) as CL. cbn [child part] in CL. destruct (nd_right n) as [k'|].
      - destruct CL as [CL1 CL2]. rewrite Z.gtb_ltb. destruct (Z.ltb_spec (nd_center n) p) as [Hp|Hp].
        + destruct (IH k' acc2 fuel) as (f & F1 & F2 & F3); [lia|lia|lia|exact N2|intros x Hx; apply CL2, rights_In in Hx; apply P; tauto|]. exists f. split; [exact F1|]. split; [exact F2|].
          intros x. rewrite F3, CL2. reflexivity.
        + exists acc2. split; [reflexivity|]. split; [exact N2|]. intros x. split; [auto|]. intros [H|[H1 H2]]; [exact H|].
          apply rights_In in H1. unfold covers in H2. lia.
      - exists acc2. split; [reflexivity|]. split; [exact N2|]. destruct CL as [CL|[]]. rewrite CL. cbn. tauto. }
    destruct R as (acc3 & E3 & N3 & M3). exists acc3. split; [exact E3|]. split; [exact N3|].
    intros x. rewrite M3, M2, M1. unfold below. tauto. }
  assert (Loop : forall l acc, NoDup acc -> exists acc', loopM step l acc = Ok acc' /\ NoDup acc' /\
            forall x, In x acc' <-> In x acc \/ (In x l /\ covers x p) \/ (l <> [] /\ below x)).
  { clear acc N. induction l as [|iv l IHl]; intros acc N.
    - exists acc. split; [reflexivity|]. split; [exact N|]. cbn. intuition congruence.
    - rewrite loopM_cons. destruct (Step acc iv N) as (a1 & F1 & F2 & F3). rewrite F1. cbn [bind].
      destruct (IHl a1 F2) as (a2 & H1 & H2 & H3). exists a2. split; [exact H1|]. split; [exact H2|]. intros x. rewrite H3, F3. cbn [In].
      assert (iv :: l <> []) by discriminate. intuition (subst; auto). }
  destruct (Loop (nd_intervals n) acc N) as (found & F1 & F2 & F3). exists found. split; [exact F1|]. split; [exact F2|].
  intros x. rewrite F3, A.
  split.
  - intros [H|[[H1 H2]|[_ [[H1|H1] H2]]]]; [auto| | |]; right; (split; [|exact H2]).
    + apply owns_In in H1. tauto.
    + apply lefts_In in H1. tauto.
    + apply rights_In in H1. tauto.
  - intros [H|[H1 H2]]; [auto|]. right.
    assert (Own : owns (nd_center n) (S i) <> []).
    { intros E. assert (I : In m (owns (nd_center n) (S i))).
      { apply owns_In. split; [exact Hm|]. pose proof (P m Hm) as Pm. unfold proper in Pm. lia. }
      rewrite E in I. destruct I. }
    destruct (Z.lt_ge_cases (iv_right x) (nd_center n)) as [Hr|Hr].
    + right. split; [exact Own|]. split; [left; apply lefts_In; auto|exact H2].
    + destruct (Z.lt_ge_cases (nd_center n) (iv_left x)) as [Hl|Hl].
      * right. split; [exact Own|]. split; [right; apply rights_In; auto|exact H2].
      * left. split; [apply owns_In; auto|exact H2].
Qed.

(* ---- what a tree finds ---- *)
Definition holds' (t : itree) (l : list interval) : Prop := holds t l /\ forall i, In i l -> proper i.

Lemma new_holds fuel l t : it_new fuel l = Ok t -> holds' t l.
Proof.
  intros E. assert (Hl : l <> []).
  { intros ->. destruct fuel; discriminate. }
  assert (P : forall i, In i l -> proper i).
  { intros i Hi. destruct (Z.le_gt_cases (iv_left i) (iv_right i)) as [H|H]; [exact H|].
    rewrite (new_runs l fuel) in E; [discriminate|]. exists i. split; [exact Hi|]. unfold proper. lia. }
  destruct (new_ok l (Nat.max fuel (length l)) Hl P (Nat.le_max_r _ _)) as (t' & E' & H).
  assert (E2 : it_new (Nat.max fuel (length l)) l = Ok t) by (apply (build_more fuel _ _ _ _ E); [discriminate|apply Nat.le_max_l]).
  rewrite E' in E2. injection E2 as ->. split; [exact H|exact P].
Qed.

Lemma resort_holds t l : holds' t l -> holds' (mkTree (it_nodes t) (z_sort (it_boundaries t))) l.
Proof.
  intros ((S & G & H0 & Hn & B) & P). split; [|exact P]. exists S. split; [exact G|]. split; [exact H0|]. split; [exact Hn|].
  intros x. rewrite <- B. cbn [it_boundaries]. split; apply Permutation_in; [|symmetry]; apply z_sort_perm.
Qed.

Lemma tree_of_holds ord pick l t : tree_of ord pick l t -> holds' t l.
Proof.
  induction 1 as [fuel t E|fuel t left right r t' _ IH E]; [exact (new_holds fuel l t E)|].
  unfold it_envelopes in E. destruct (left >=? right)%Z; [injection E as _ <-; exact IH|].
  destruct (it_search fuel t 0 left []) as [f|]; [|discriminate]. cbn [bind] in E. cbv zeta in E.
  destruct (_ && _) in E; [|discriminate]. destruct (loopM _ _ f) in E; [|discriminate]. cbn [bind] in E. injection E as _ <-. apply resort_holds, IH.
Qed.

Lemma search_top t l p acc fuel : holds' t l -> length (it_nodes t) <= fuel -> NoDup acc ->
  exists found, it_search fuel t 0 p acc = Ok found /\ NoDup found /\ forall x, In x found <-> In x acc \/ (In x l /\ covers x p).
Proof.
  intros ((S & G & H0 & Hn & _) & P) Hf N.
  destruct (search_proof S t G p (length (it_nodes t)) 0 acc fuel) as (found & E1 & E2 & E3); try lia.
  - destruct (it_nodes t); [congruence|cbn; lia].
  - exact N.
  - intros x Hx. apply P, H0, Hx.
  - exists found. split; [exact E1|]. split; [exact E2|]. intros x. rewrite E3, H0. reflexivity.
Qed.

Lemma search_all t l ps fuel : holds' t l -> length (it_nodes t) <= fuel -> forall acc, NoDup acc ->
  exists found, loopM (fun found e => it_search fuel t 0 e found) ps acc = Ok found /\ NoDup found /\
    forall x, In x found <-> In x acc \/ (In x l /\ exists p, In p ps /\ covers x p).
Proof.
  intros H Hf. induction ps as [|p ps IH]; intros acc N.
  - exists acc. split; [reflexivity|]. split; [exact N|]. intros x. split; [auto|]. intros [K|[_ (p & [] & _)]]. exact K.
  - rewrite loopM_cons. destruct (search_top t l p acc fuel H Hf N) as (a1 & E1 & N1 & M1). rewrite E1. cbn [bind].
    destruct (IH a1 N1) as (a2 & E2 & N2 & M2). exists a2. split; [exact E2|]. split; [exact N2|]. intros x. rewrite M2, M1. cbn [In]. split.
    + intros [[K|[K1 K2]]|[K1 (q & K2 & K3)]]; [auto| |]; right; (split; [exact K1|]); [exists p|exists q]; auto.
    + intros [K|[K1 (q & [->|K2] & K3)]]; [auto|left; right; auto|]. right. split; [exact K1|]. exists q. auto.
Qed.

Lemma ordered_tidy ord k s : any_order ord -> NoDup s -> tidy (it_ordered ord k s) /\ forall x, In x (it_ordered ord k s) <-> In x s.
Proof.
  intros O N. unfold it_ordered. split; [split|].
  - eapply Permutation_NoDup; [symmetry; eapply Permutation_trans; [apply iv_sort_perm|apply O]|exact N].
  - apply iv_sort_sorted.
  - intros x. rewrite iv_sort_In. split; apply Permutation_in; [|symmetry]; apply O.
Qed.

Lemma point_proof ord t l fuel p : any_order ord -> holds' t l -> length (it_nodes t) <= fuel ->
  exists r, it_point ord fuel t p = Ok r /\ tidy r /\ forall x, In x r <-> In x l /\ covers x p.
Proof.
  intros O H Hf. unfold it_point. destruct (search_top t l p [] fuel H Hf) as (f & E & N & M); [constructor|]. rewrite E. cbn [bind].
  destruct (ordered_tidy ord 0 f O N) as [T I]. eexists. split; [reflexivity|]. split; [exact T|]. intros x. rewrite I, M. cbn. tauto.
Qed.

Lemma range_proof ord range t l fuel a b : any_order ord -> holds' t l -> length (it_nodes t) <= fuel ->
  exists r, it_range ord range fuel t a b = Ok r /\ tidy r /\ forall x, In x r <-> In x l /\ exists p, In p (range a b) /\ covers x p.
Proof.
  intros O H Hf. unfold it_range. destruct (search_all t l (range a b) fuel H Hf []) as (f & E & N & M); [constructor|]. rewrite E. cbn [bind].
  destruct (ordered_tidy ord 1 f O N) as [T I]. eexists. split; [reflexivity|]. split; [exact T|]. intros x. rewrite I, M. cbn. tauto.
Qed.

(* ---- envelopes ---- *)
Definition below_n (l : list Z) (x : Z) := length (filter (fun y => y <? x)%Z l).

Lemma sorted_head a l : Sorted Z.le (a :: l) -> forall j v, nth_error l j = Some v -> (a <= v)%Z.
Proof.
  intros H j v E. apply Sorted_StronglySorted in H; [|intros x y z; lia]. apply StronglySorted_inv in H. destruct H as [_ H].
  rewrite Forall_forall in H. apply H. eapply nth_error_In, E.
Qed.
Lemma below_n_lt l x : Sorted Z.le l -> forall j v, nth_error l j = Some v -> (v < x)%Z <-> j < below_n l x.
Proof.
  induction l as [|a l IH]; intros H j v E; [destruct j; discriminate|].
  assert (Hs : Sorted Z.le l) by (inversion H; assumption). unfold below_n in *. cbn [filter].
  destruct (Z.ltb_spec a x) as [Ha|Ha].
  - destruct j as [|j]; [injection E as <-|]; cbn [length nth_error] in *; [lia|]. rewrite (IH Hs j v E). lia.
  - assert (Z0 : filter (fun y => (y <? x)%Z) l = []).
    { destruct (filter (fun y => (y <? x)%Z) l) as [|z r] eqn:F; [reflexivity|]. assert (I : In z (filter (fun y => (y <? x)%Z) l)) by (rewrite F; left; reflexivity).
      apply filter_In in I. destruct I as [I1 I2]. apply Z.ltb_lt in I2. apply In_nth_error in I1. destruct I1 as (k & I1). pose proof (sorted_head a l H k z I1). lia. }
    rewrite Z0. cbn [length]. destruct j as [|j]; [injection E as <-; lia|]. pose proof (sorted_head a l H j v E). lia.
Qed.
Lemma below_n_le l x : below_n l x <= length l.
Proof. unfold below_n. induction l as [|a l IH]; cbn; [lia|]. destruct (a <? x)%Z; cbn; lia. Qed.

Lemma pick_facts pick l x : any_place pick -> Sorted Z.le l ->
  pick l x <= length l /\ (forall j v, nth_error l j = Some v -> (v < x)%Z -> j < pick l x) /\
  (forall j v, nth_error l j = Some v -> (x < v)%Z -> pick l x <= j).
Proof.
  intros A H. destruct (A l x H) as [A1 A2]. fold (below_n l x) in A2. destruct (in_dec Z.eq_dec x l) as [I|I].
  - specialize (A1 I). clear A2. split; [|split].
    + apply Nat.lt_le_incl, nth_error_Some. congruence.
    + intros j v E L. pose proof (proj1 (below_n_lt l x H j v E) L). destruct (Nat.lt_ge_cases j (pick l x)); [assumption|].
      exfalso. assert (x < x)%Z; [|lia]. apply (proj2 (below_n_lt l x H (pick l x) x A1)). lia.
    + intros j v E L. destruct (Nat.lt_ge_cases j (pick l x)) as [K|K]; [|assumption]. exfalso.
      assert (j < below_n l v); [|assert (v < v)%Z; [apply (proj2 (below_n_lt l v H j v E)); assumption|lia]].
      pose proof (proj1 (below_n_lt l v H (pick l x) x A1) L). lia.
  - rewrite (A2 I). split; [apply below_n_le|]. split.
    + intros j v E L. apply (below_n_lt l x H j v E), L.
    + intros j v E L. destruct (Nat.lt_ge_cases j (below_n l x)) as [K|K]; [|assumption]. apply (below_n_lt l x H j v E) in K. lia.
Qed.

Lemma pick_order pick l a b : any_place pick -> Sorted Z.le l -> (a < b)%Z -> pick l a <= pick l b.
Proof.
  intros A H L. destruct (pick_facts pick l a A H) as (F1 & F2 & F3). destruct (pick_facts pick l b A H) as (G1 & G2 & G3).
  destruct (nth_error l (pick l b)) as [v|] eqn:E; [|apply nth_error_None in E; lia].
  destruct (Z.lt_ge_cases a v) as [K|K]; [exact (F3 _ _ E K)|]. exfalso. specialize (G2 _ _ E). lia.
Qed.

Lemma slice_In {A} (l : list A) i n k x : nth_error l k = Some x -> i <= k < i + n -> In x (firstn n (skipn i l)).
Proof.
  intros E H. apply nth_error_In with (n := k - i). 
  assert (E' : nth_error (skipn i l) (k - i) = Some x).
  { rewrite <- (firstn_skipn i l) in E. assert (i <= length l) by (assert (k < length (firstn i l ++ skipn i l)) by (apply nth_error_Some; congruence); rewrite firstn_skipn in *; lia).
    rewrite nth_error_app2 in E; rewrite firstn_length_le in * by lia; [exact E|lia]. }
  rewrite <- (firstn_skipn n (skipn i l)) in E'. rewrite nth_error_app1 in E'; [exact E'|].
  rewrite firstn_length. assert (k - i < length (skipn i l)) by (apply nth_error_Some; rewrite <- (firstn_skipn n (skipn i l)); congruence). lia.
Qed.

Lemma envelopes_proof ord pick t l fuel a b : any_order ord -> any_place pick -> holds' t l -> length (it_nodes t) <= fuel ->
  exists r t', it_envelopes ord pick fuel t a b = Ok (r, t') /\ tidy r /\
    (forall x, In x r -> In x l /\ within x a b) /\
    (forall x, In x l -> within x a b -> (iv_left x < b)%Z -> (a < b)%Z -> In x r).
Proof.
  intros O A H Hf. unfold it_envelopes. rewrite Z.geb_leb. destruct (Z.leb_spec b a) as [L|L].
  - exists [], t. split; [reflexivity|]. split; [repeat constructor|]. split; [intros x []|]. intros; lia.
  - destruct (search_top t l a [] fuel H Hf) as (f & E & N & M); [constructor|]. rewrite E. cbn [bind]. cbv zeta.
    set (sb := z_sort (it_boundaries t)). assert (Sb : Sorted Z.le sb) by apply z_sort_sorted.
    destruct (pick_facts pick sb a A Sb) as (F1 & F2 & F3). destruct (pick_facts pick sb b A Sb) as (G1 & G2 & G3).
    pose proof (pick_order pick sb a b A Sb L) as Le.
    rewrite (proj2 (Nat.leb_le _ _) Le), (proj2 (Nat.leb_le _ _) G1). cbn [andb].
    destruct (search_all (mkTree (it_nodes t) sb) l (firstn (pick sb b - pick sb a) (skipn (pick sb a) sb)) fuel (resort_holds t l H) Hf f N) as (f2 & E2 & N2 & M2).
    rewrite E2. cbn [bind]. eexists. eexists. split; [reflexivity|].
    assert (I : forall x, In x (iv_sort (filter (fun i => (iv_left i >=? a) && (iv_right i <=? b))%Z (ord 2 _ f2))) <-> In x f2 /\ within x a b).
    { intros x. rewrite iv_sort_In, filter_In, andb_true_iff, Z.geb_leb, !Z.leb_le. unfold within.
      assert (Px : In x (ord 2 _ f2) <-> In x f2) by (split; apply Permutation_in; [|symmetry]; apply O). rewrite Px. reflexivity. }
    split; [split; [|apply iv_sort_sorted]|split].
    + eapply Permutation_NoDup; [symmetry; apply iv_sort_perm|]. apply NoDup_filter. eapply Permutation_NoDup; [symmetry; apply O|exact N2].
    + intros x Hx. apply I in Hx. destruct Hx as [Hx W]. split; [|exact W]. apply M2 in Hx. destruct Hx as [Hx|[Hx _]]; [|exact Hx].
      apply M in Hx. destruct Hx as [[]|[Hx _]]. exact Hx.
    + intros x Hx W Lb _. apply I. split; [|exact W]. apply M2. destruct H as ((S & _ & _ & _ & B) & P). pose proof (P x Hx) as Px. unfold proper in Px. unfold within in W.
      destruct (Z.eq_dec (iv_left x) a) as [Ea|Ea].
      * left. apply M. right. split; [exact Hx|]. unfold covers. lia.
      * right. split; [exact Hx|]. exists (iv_left x). split; [|unfold covers; lia].
        assert (In (iv_left x) sb).
        { apply (Permutation_in (l := it_boundaries t)); [symmetry; apply z_sort_perm|]. apply B. exists x. auto. }
        apply In_nth_error in H. destruct H as (k & Ek). apply (slice_In sb _ _ k _ Ek).
        pose proof (G2 _ _ Ek Lb). assert (K : (a < iv_left x)%Z) by lia. pose proof (F3 _ _ Ek K). lia.
Qed.
