(** Further theorems for C20, C23, C41, C44, C48, C50 and C57. *)
From Coq Require Import Permutation QArith Reals.
From Verif Require Import Py LogModel PatternModel PatternSpec PatternProps NearModel NearSpec NearProps DecodeModel XesModel
  PosModel FilterModel ColorModel ColorSpec ColorProps DrawModel ClusterModel ClusterSpec.
Open Scope nat_scope.

(** C23: a log has one result per trace, at the place of the trace: the repeats of the trace which lie in
    no other repeat of it. *)
Theorem C23_log : forall (repeats : list N -> list sub_array) traces,
  (forall t r, In t traces -> In r (repeats t) -> block t r <> []) ->
  length (find_super_maximal_repeats repeats traces) = length traces /\
  forall k t, nth_error traces k = Some t -> exists found, nth_error (find_super_maximal_repeats repeats traces) k = Some found /\
    forall r, In r found <-> exists i, nth_error (repeats t) i = Some r /\
      forall j r', j <> i -> nth_error (repeats t) j = Some r' -> ~ inside (block t r) (block t r').
Proof.
  intros rs ts H. split; [apply map_length|]. intros k t Hk. eexists. split; [apply map_nth_error; exact Hk|].
  apply C23_super_maximal_exact. intros r Hr. apply (H t r); [exact (nth_error_In _ _ Hk)|exact Hr].
Qed.
Print Assumptions C23_log.
Example C23_log_case :
  let ts := [[1; 2; 3; 1; 2; 3]; [7; 7]]%N in
  let rs t := if length t =? 6 then [mkSub 0 3; mkSub 1 2] else [mkSub 0 1] in
  (forall t r, In t ts -> In r (rs t) -> block t r <> []) /\ find_super_maximal_repeats rs ts = [[mkSub 0 3]; [mkSub 0 1]].
Proof.
  cbv zeta. split; [|vm_compute; reflexivity]. intros t r [<-|[<-|[]]] Hr; cbn in Hr; intuition subst; vm_compute in *; discriminate.
Qed.

(** C48: the same for the near super maximal repeats. *)
Theorem C48_log :
  forall (interval_order : list interval -> list interval) (index_order : list nat -> list nat),
  (forall l, Permutation (interval_order l) l) -> (forall l, Permutation (index_order l) l) ->
  forall (repeats : list N -> list sub_array) traces, (forall t, In t traces -> proper_repeats t (repeats t)) ->
  let results := find_near_super_maximal_repeats interval_order index_order repeats traces in
  length results = length traces /\
  forall k t, nth_error traces k = Some t -> exists found, nth_error results k = Some found /\ NoDup found /\
    forall r, In r found <-> In r (repeats t) /\ exists i, free_at t (repeats t) r i.
Proof.
  intros io xo Hi Hx rs ts H results. split; [apply map_length|]. intros k t Hk. eexists. split; [apply map_nth_error; exact Hk|].
  apply C48_near_super_maximal_exact; [exact Hi|exact Hx|]. apply H. exact (nth_error_In _ _ Hk).
Qed.
Print Assumptions C48_log.
Example C48_log_case :
  let ts := [[1; 2; 9; 1; 2; 8; 2]; [7; 7]]%N in
  let rs t := if length t =? 7 then [mkSub 0 2; mkSub 1 1] else [mkSub 0 1] in
  (forall t, In t ts -> proper_repeats t (rs t)) /\
  find_near_super_maximal_repeats (fun l => l) (fun l => l) rs ts = [[mkSub 0 2; mkSub 1 1]; [mkSub 0 1]].
Proof.
  cbv zeta. split; [|vm_compute; reflexivity]. intros t [<-|[<-|[]]]; cbn [length Nat.eqb];
    (split; [intros r Hr; cbn in Hr; intuition subst; cbn; lia|repeat constructor; cbn; intuition discriminate]).
Qed.

(** C44: a log of names is read as it was sent. *)
Theorem C44_names_log : forall log, from_grpc_names_log log = log.
Proof. intros log. unfold from_grpc_names_log. rewrite <- (map_id log) at 2. apply map_ext. intros t. apply map_id. Qed.
Print Assumptions C44_names_log.
Example C44_names_log_case : from_grpc_names_log [[str "A"; str "B"]; []; [str "A"]] = [[str "A"; str "B"]; []; [str "A"]].
Proof. reflexivity. Qed.

(** C41: a list of names selects exactly the names in it. *)
Theorem C41_concrete_placements : forall rnd fuel events log hs p ca nss p' ca' rows legend labels, names_of log nss ->
  draw_placements_of_concrete_events rnd fuel events log hs (p, ca) = ((p', ca'), Ok ((rows, legend), labels)) ->
  labels = (N.of_nat (length nss), N.of_nat (longest nss)) /\
  (forall n, (~ In n (concat nss) \/ ~ In n events) -> dget str_eq_dec ca' n = dget str_eq_dec ca n) /\
  exists col, (forall n, In n (concat nss) -> In n events -> dget str_eq_dec ca' n = Some (col n)) /\
    (forall n, In n (concat nss) -> ~ In n events -> col n = str "#000000") /\
    paints col 1 hs nss rows /\ legend_of col (concat nss) legend.
Proof.
  intros rnd fuel events log hs p ca nss p' ca' rows legend labels Hn H.
  assert (Q : forall n, existsb (str_eqb n) events = true <-> In n events).
  { intros n. rewrite existsb_exists. split.
    - intros (x & Hx & E). unfold str_eqb in E. destruct (str_eq_dec n x); [subst; exact Hx|discriminate].
    - intros Hx. exists n. split; [exact Hx|]. unfold str_eqb. destruct (str_eq_dec n n); [reflexivity|contradiction]. }
  destruct (C41_placements _ _ _ _ _ _ _ _ _ _ _ Hn H) as (Hk & _ & Hl & col & Hc & _ & Hp & Hg).
  split; [exact Hl|]. split.
  - intros n [Hi|Hi]; apply Hk; [left; exact Hi|right]. destruct (existsb (str_eqb n) events) eqn:E; [|reflexivity]. apply Q in E. contradiction.
  - exists col. split; [|split; [|split; assumption]].
    + intros n Hi He. specialize (Hc n Hi). apply Q in He. rewrite He in Hc. exact Hc.
    + intros n Hi He. specialize (Hc n Hi). destruct (existsb (str_eqb n) events) eqn:E; [apply Q in E; contradiction|exact Hc].
Qed.
Print Assumptions C41_concrete_placements.
Example C41_concrete_placements_case :
  let R x s := mkRect x 0 1 1 (str s) in let log := ColorProps.log_of [["c"; "a"; "b"]]%string in
  names_of log [[str "c"; str "a"; str "b"]] /\
  match snd (draw_placements_of_concrete_events ColorProps.counting 3 [str "c"; str "b"] log 1 (mkProv [] 3, [])) with
  | Ok ((rows, _), labels) => rows = [[R 0 "#010101"%string; R 1 "#000000"%string; R 2 "#020202"%string]]%N /\ labels = (1, 3)%N
  | Err _ => False
  end.
Proof. cbv zeta. split; [apply (names_log_of [["c"; "a"; "b"]]%string)|]. vm_compute. auto. Qed.

(** C50: the axes of the placement picture end at the number of traces and at the length of the longest one. *)
Theorem C50_placement_axes : forall rnd fuel activity actss lens hs p p' drawn labels,
  draw_placement_different rnd fuel activity actss lens hs p = (p', Ok (drawn, labels)) ->
  fst labels = N.of_nat (length lens) /\ (forall len, In len lens -> (N.of_nat len <= snd labels)%N) /\
  exists len, In len lens /\ snd labels = N.of_nat len.
Proof.
  intros rnd fuel activity actss lens hs p p' drawn labels H. unfold draw_placement_different in H.
  assert (A : log_axes lens 1 hs = Ok labels).
  { unfold draw_internal, sbind in H. destruct (place_traces _ _ _ _ _ _ _ _ _) as [p1 [d|e]]; [|discriminate].
    destruct (log_axes lens 1 hs) as [a|e]; cbv [sret sfail] in H; [|discriminate]. congruence. }
  clear H. unfold log_axes in A. destruct (hs =? 0)%N eqn:Hz; [discriminate|]. apply N.eqb_neq in Hz.
  destruct lens as [|x lens]; [discriminate|]. remember (x :: lens) as ls eqn:El. cbn [N.eqb] in A.
  assert (E := f_equal (fun r => match r with Ok v => v | Err _ => (0, 0)%N end) A). cbv beta iota zeta in E.
  rewrite <- E. cbn [fst snd]. rewrite !N.add_sub, N.div_mul, N.mul_1_r, N.div_1_r by exact Hz.
  split; [reflexivity|]. assert (Hne : ls <> []) by (subst; discriminate). clear -Hne.
  induction ls as [|y l IH]; [contradiction|]. cbn [fold_right]. destruct l as [|z l].
  - cbn [fold_right]. rewrite Nat.max_0_r. split; [intros len [<-|[]]; lia|]. exists y. split; [left; reflexivity|reflexivity].
  - destruct IH as (IH1 & m & Hm & E); [discriminate|]. split.
    + intros len [<-|Hi]; [lia|]. specialize (IH1 len Hi). lia.
    + destruct (Nat.max_spec y (fold_right Nat.max 0 (z :: l))) as [[_ ->]|[_ ->]].
      * exists m. split; [right; exact Hm|exact E].
      * exists y. split; [left; reflexivity|reflexivity].
Qed.
Print Assumptions C50_placement_axes.
Example C50_placement_axes_case :
  let A := str "A" in exists p d, draw_placement_different (fun n => N.of_nat (n / 3 + 1)) 1 A [[(A, 1, 2)]; []]%N [6; 3] 2 (new_provider 0) = (p, Ok (d, (2, 6)%N)).
Proof. cbv zeta. do 2 eexists. vm_compute. reflexivity. Qed.

(** C57: the label of a row in the dataset of DBSCAN is 0 for noise, otherwise one more than its cluster. *)
Theorem C57_dbscan_labels : forall lens instances processed clusters out labels,
  clusterize_dbscan lens instances processed clusters = Ok (out, labels) ->
  length labels = length clusters /\
  (forall i, nth_error clusters i = Some None -> nth_error labels i = Some 0%N) /\
  (forall i c, nth_error clusters i = Some (Some c) -> nth_error labels i = Some (c + 1)%N).
Proof.
  intros lens instances processed clusters out labels H. unfold clusterize_dbscan in H.
  destruct (merge_activities lens instances processed clusters) as [o|]; [|discriminate]. cbn [bind] in H.
  assert (E : map dbscan_label clusters = labels) by congruence. subst labels. split; [apply map_length|].
  split; intros; apply (map_nth_error dbscan_label) in H0; exact H0.
Qed.
Print Assumptions C57_dbscan_labels.
Example C57_dbscan_labels_case : exists out,
  clusterize_dbscan [] [] [] [Some 1; None; Some 0]%N = Ok (out, [2; 0; 1]%N).
Proof. eexists. vm_compute. reflexivity. Qed.

(** C20: what [top_percent] leaves of n sorted names when int(n * top_percent) is k: the last k of them if
    k <= n, without the first 2n - k if k is between n and 2n, all of them from 2n on. *)
Theorem C20_top : forall sorted q (k : nat), q_trunc (inject_Z (Z.of_nat (length sorted)) * q) = Z.of_nat k ->
  let n := length sorted in
  exists dropped, sorted = dropped ++ top_entropies sorted q /\
    length dropped = if k <=? n then n - k else if k <=? 2 * n then 2 * n - k else 0.
Proof.
  intros l q k Hk n. unfold top_entropies, slice_from. rewrite Hk. fold n.
  set (d := Z.to_nat _). exists (firstn d l). split; [symmetry; apply firstn_skipn|].
  assert (Hd : d = if k <=? n then n - k else if k <=? 2 * n then 2 * n - k else 0).
  { unfold d. destruct (Z.ltb_spec (Z.of_nat n - Z.of_nat k) 0), (Nat.leb_spec k n), (Nat.leb_spec k (2 * n)); lia. }
  rewrite firstn_length, <- Hd. fold n. destruct (Nat.leb_spec k n), (Nat.leb_spec k (2 * n)); lia.
Qed.
Print Assumptions C20_top.
Example C20_top_case : let l := [(str "A", 0%R); (str "B", 1%R); (str "C", 2%R)] in
  q_trunc (inject_Z (Z.of_nat (length l)) * 1) = 3%Z /\ top_entropies l 1 = l /\ top_entropies l (3 # 1) = l /\
  top_entropies l (2 # 3) = [(str "B", 1%R); (str "C", 2%R)] /\ top_entropies l (5 # 3) = [(str "B", 1%R); (str "C", 2%R)].
Proof. vm_compute. auto. Qed.
