(** C89: building an interval tree and searching it by a point or a range.  C90: searching envelopes. *)
From Coq Require Import Permutation Sorted.
From Verif Require Import Py PyFacts ReplayModel RInfoModel RInfoSpec ITreeModel ITreeSpec ITreeProofs.

(** Building ends with a tree exactly if there are intervals and none has its ends turned round. *)
Theorem C89_build : forall l,
  (l = [] -> forall fuel, it_new (S fuel) l = rpanic) /\
  ((exists i, In i l /\ ~ proper i) -> forall fuel, it_new fuel l = Err Diverges) /\
  (l <> [] -> (forall i, In i l -> proper i) -> exists t, forall fuel, length l <= fuel -> it_new fuel l = Ok t).
Proof.
  intros l. split; [intros -> fuel; reflexivity|]. split; [intros H fuel; apply new_runs, H|].
  intros Hl P. destruct (new_ok l (length l) Hl P (Nat.le_refl _)) as (t & E & _). exists t. intros fuel Hf.
  apply (build_more (length l) _ _ _ _ E); [discriminate|exact Hf].
Qed.

(** A point finds exactly the intervals it is in, once each, by their left ends. *)
Theorem C89_points : forall ord pick l t p fuel, any_order ord -> tree_of ord pick l t -> length (it_nodes t) <= fuel ->
  exists r, it_point ord fuel t p = Ok r /\ tidy r /\ forall x, In x r <-> In x l /\ covers x p.
Proof. intros ord pick l t p fuel O H Hf. apply point_proof; [exact O|exact (tree_of_holds ord pick l t H)|exact Hf]. Qed.

(** A range finds exactly the intervals some of its elements are in. *)
Theorem C89_ranges : forall ord pick range l t a b fuel, any_order ord -> tree_of ord pick l t -> length (it_nodes t) <= fuel ->
  exists r, it_range ord range fuel t a b = Ok r /\ tidy r /\ forall x, In x r <-> In x l /\ exists p, In p (range a b) /\ covers x p.
Proof. intros ord pick range l t a b fuel O H Hf. apply range_proof; [exact O|exact (tree_of_holds ord pick l t H)|exact Hf]. Qed.

(** With ranges of all elements, both ends included, these are the intervals with a common point. *)
Theorem C89_closed_ranges : forall ord pick range l t a b fuel, any_order ord -> tree_of ord pick l t -> length (it_nodes t) <= fuel ->
  (forall p, In p (range a b) <-> (a <= p <= b)%Z) ->
  exists r, it_range ord range fuel t a b = Ok r /\ tidy r /\
    forall x, In x r <-> In x l /\ exists p, covers x p /\ (a <= p <= b)%Z.
Proof.
  intros ord pick range l t a b fuel O H Hf R. destruct (C89_ranges ord pick range l t a b fuel O H Hf) as (r & E & T & M).
  exists r. split; [exact E|]. split; [exact T|]. intros x. rewrite M. split; intros [K1 (p & K2 & K3)]; (split; [exact K1|]); exists p.
  - apply R in K2. auto.
  - split; [apply R; exact K3|exact K2].
Qed.

(** The range [a..b) of the tests of the backend leaves out intervals that begin where the searched one ends. *)
Definition half_open (a b : Z) : list Z := map (fun k => a + Z.of_nat k)%Z (seq 0 (Z.to_nat (b - a))).
Theorem C89_half_open_ranges_refuted :
  ~ (forall ord pick l t a b fuel r x, any_order ord -> tree_of ord pick l t -> length (it_nodes t) <= fuel ->
     it_range ord half_open fuel t a b = Ok r -> In x l -> (exists p, covers x p /\ (a <= p <= b)%Z) -> In x r).
Proof.
  intros H. set (x := mkIv 5 7 None). destruct (it_new 5 [x]) as [t|] eqn:E; [|discriminate].
  specialize (H (fun _ _ l => l) (fun _ _ => 0) [x] t 2%Z 5%Z 5). vm_compute in E. injection E as <-.
  apply (H [] x); [intros k A l; reflexivity|apply (tree_new _ _ _ 5); reflexivity|cbn; lia|reflexivity|left; reflexivity|].
  exists 5%Z. unfold covers, x. cbn. lia.
Qed.

(** Whatever place binary search gives, only intervals of the tree inside the given one are found, and all that do not begin at its end. *)
Theorem C90_envelopes : forall ord pick l t a b fuel, any_order ord -> any_place pick -> tree_of ord pick l t -> length (it_nodes t) <= fuel ->
  exists r t', it_envelopes ord pick fuel t a b = Ok (r, t') /\ tidy r /\
    (forall x, In x r -> In x l /\ within x a b) /\
    (forall x, In x l -> within x a b -> (iv_left x < b)%Z -> (a < b)%Z -> In x r).
Proof. intros ord pick l t a b fuel O A H Hf. apply envelopes_proof; [exact O|exact A|exact (tree_of_holds ord pick l t H)|exact Hf]. Qed.

(** If no interval is a single point, exactly the intervals inside the given one are found. *)
Theorem C90_exact : forall ord pick l t a b fuel, any_order ord -> any_place pick -> tree_of ord pick l t -> length (it_nodes t) <= fuel ->
  (forall x, In x l -> iv_left x <> iv_right x) ->
  exists r t', it_envelopes ord pick fuel t a b = Ok (r, t') /\ tidy r /\ forall x, In x r <-> In x l /\ within x a b.
Proof.
  intros ord pick l t a b fuel O A H Hf D. destruct (C90_envelopes ord pick l t a b fuel O A H Hf) as (r & t' & E & T & M1 & M2).
  exists r, t'. split; [exact E|]. split; [exact T|]. intros x. split; [apply M1|]. intros [K1 K2].
  destruct (tree_of_holds ord pick l t H) as [_ P]. pose proof (P x K1) as Px. pose proof (D x K1) as Dx. unfold proper, within in *. apply M2; auto; lia.
Qed.

(** The given interval being a single point, nothing is found. *)
Theorem C90_single_point : forall ord pick t a fuel, it_envelopes ord pick fuel t a a = Ok ([], t).
Proof. intros. unfold it_envelopes. rewrite Z.geb_leb, Z.leb_refl. reflexivity. Qed.

(** The first place of an element, or the one to put it. *)
Definition first_place (l : list Z) (x : Z) : nat := length (filter (fun y => y <? x)%Z l).
Lemma first_place_any : any_place first_place.
Proof.
  intros l x H. split; [|reflexivity]. intros I. apply In_nth_error in I. destruct I as (k & Ek).
  change (first_place l x) with (below_n l x).
  assert (K : below_n l x <= k). { destruct (Nat.lt_ge_cases k (below_n l x)) as [K|K]; [|exact K]. apply (below_n_lt l x H k x Ek) in K. lia. }
  destruct (nth_error l (below_n l x)) as [v|] eqn:E.
  - f_equal. assert (~ (v < x)%Z) by (intros L; apply (below_n_lt l x H _ v E) in L; lia).
    assert (~ (x < v)%Z); [|lia]. intros L. apply (below_n_lt l v H k x Ek) in L.
    assert (v < v)%Z; [|lia]. apply (below_n_lt l v H _ v E). lia.
  - apply nth_error_None in E. assert (k < length l) by (apply nth_error_Some; congruence). lia.
Qed.

(** An interval of a single point at the end of the given one can be left out. *)
Theorem C90_all_inside_refuted :
  ~ (forall ord pick l t a b fuel r t' x, any_order ord -> any_place pick -> tree_of ord pick l t -> length (it_nodes t) <= fuel ->
     it_envelopes ord pick fuel t a b = Ok (r, t') -> (a < b)%Z -> In x l -> within x a b -> In x r).
Proof.
  intros H. set (x := mkIv 5 5 None). destruct (it_new 5 [x]) as [t|] eqn:E; [|discriminate].
  specialize (H (fun _ _ l => l) first_place [x] t 2%Z 5%Z 5). vm_compute in E. injection E as <-.
  eapply (H [] _ x); [intros k A l; reflexivity|apply first_place_any|apply (tree_new _ _ _ 5); reflexivity|cbn; lia|reflexivity|lia|left; reflexivity|].
  unfold within, x. cbn. lia.
Qed.

(** A tree of three nodes. *)
Definition some_intervals : list interval := [mkIv 1 4 (Some 1%N); mkIv 6 9 None; mkIv 3 8 (Some 2%N); mkIv 11 12 None; mkIv 1 4 None; mkIv 6 6 None].
Definition some_tree : itree := match it_new 10 some_intervals with Ok t => t | Err _ => mkTree [] [] end.
Example C89_build_case : it_new 10 some_intervals = Ok some_tree /\ length (it_nodes some_tree) = 3 /\
  it_new 10 [] = rpanic /\ it_new 50 [mkIv 1 4 None; mkIv 9 2 None] = Err Diverges.
Proof. vm_compute. auto. Qed.
Example C89_points_case : tree_of (fun _ _ l => rev l) first_place some_intervals some_tree /\
  it_point (fun _ _ l => rev l) 3 some_tree 3 = Ok [mkIv 1 4 None; mkIv 1 4 (Some 1%N); mkIv 3 8 (Some 2%N)] /\
  it_point (fun _ _ l => rev l) 3 some_tree 12 = Ok [mkIv 11 12 None] /\ it_point (fun _ _ l => rev l) 3 some_tree 10 = Ok [].
Proof. split; [apply (tree_new _ _ _ 10); reflexivity|vm_compute; auto]. Qed.
Example C89_ranges_case : it_range (fun _ _ l => l) half_open 3 some_tree 4 6 = Ok [mkIv 1 4 (Some 1%N); mkIv 1 4 None; mkIv 3 8 (Some 2%N)] /\
  it_range (fun _ _ l => l) (fun a b => half_open a (b + 1)) 3 some_tree 9 11 = Ok [mkIv 6 9 None; mkIv 11 12 None].
Proof. vm_compute. auto. Qed.
Example C90_envelopes_case :
  match it_envelopes (fun _ _ l => l) first_place 3 some_tree 1 8 with
  | Ok (r, t) => r = [mkIv 1 4 (Some 1%N); mkIv 1 4 None; mkIv 3 8 (Some 2%N); mkIv 6 6 None] /\ it_boundaries t = z_sort (it_boundaries some_tree)
  | Err _ => False end /\
  match it_envelopes (fun _ _ l => l) first_place 3 some_tree 5 6 with Ok (r, _) => r = [] | Err _ => False end.
Proof. vm_compute. auto. Qed.
Example C90_exact_case : match it_new 3 [mkIv 1 4 None; mkIv 2 3 None; mkIv 4 6 None] with
  | Ok t => match it_envelopes (fun _ _ l => l) first_place 3 t 2 6 with Ok (r, _) => r = [mkIv 2 3 None; mkIv 4 6 None] | Err _ => False end
  | Err _ => False end.
Proof. vm_compute. auto. Qed.

Print Assumptions C89_build.
Print Assumptions C89_points.
Print Assumptions C89_closed_ranges.
Print Assumptions C90_envelopes.
Print Assumptions C90_exact.
Print Assumptions C90_all_inside_refuted.
