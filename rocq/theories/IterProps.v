(** Iterators over logs, simple logs and default graphs (C96). *)
From Verif Require Import Py PyFacts InfoModel IterModel IterSpec.

Definition op_of {E} (m : move) : @titer_op E := match m with Forward => TNext | Backward => TBack end.
(** In a trace which does not change, a step forward gives the result for the event at the place reached by the steps before; at the end
    there is none, each time it is asked for. *)
Theorem C96_moves : forall E R (f : E -> R) s t l, titer_run f (map op_of (l ++ [Forward])) s (titer_new t) =
  titer_run f (map op_of l) s (titer_new t) ++ [nth_error (map f (s t)) (place (length (s t)) 0 l)].
Proof.
  intros E R f s t l. unfold titer_new. assert (H : 0 <= length (s t)) by lia. revert H. generalize 0. induction l as [|[] l IH]; intros p Hp; cbn [app map op_of titer_run place].
  - unfold titer_next. cbn [ti_trace ti_index]. destruct (nth_error (s t) p) as [e|] eqn:E1; cbn [app].
    + rewrite (map_nth_error f _ _ E1). reflexivity.
    + symmetry in E1. apply eq_sym in E1. apply nth_error_None in E1. replace (nth_error (map f (s t)) p) with (@None R); [reflexivity|]. symmetry. apply nth_error_None. rewrite map_length. exact E1.
  - unfold titer_next. cbn [ti_trace ti_index]. destruct (nth_error (s t) p) as [e|] eqn:E1; cbn [app]; f_equal.
    + assert (p < length (s t)) by (apply nth_error_Some; congruence). replace (Nat.min (p + 1) (length (s t))) with (p + 1) by lia. apply IH. lia.
    + apply nth_error_None in E1. replace (Nat.min (p + 1) (length (s t))) with p by lia. apply IH. exact Hp.
  - unfold titer_back. cbn [ti_trace ti_index]. destruct (Nat.ltb_spec 0 p) as [H|H]; [apply IH; lia|]. replace (p - 1) with p by lia. apply IH. exact Hp.
Qed.
Print Assumptions C96_moves.
(** After k steps forward and j back the result is that of event k - j. *)
Lemma place_forward n k : forall p, p + k <= n -> place n p (repeat Forward k) = p + k.
Proof. induction k as [|k IH]; intros p H; cbn [repeat place]; [lia|]. rewrite IH; lia. Qed.
Lemma place_backward n j : forall p, place n p (repeat Backward j) = p - j.
Proof. induction j as [|j IH]; intros p; cbn [repeat place]; [lia|]. rewrite IH. lia. Qed.
Lemma place_app n l1 : forall p l2, place n p (l1 ++ l2) = place n (place n p l1) l2.
Proof. induction l1 as [|[] l1 IH]; intros p l2; cbn [app place]; auto. Qed.
Theorem C96_back : forall E R (f : E -> R) s t k j, k <= length (s t) ->
  last (titer_run f (map op_of ((repeat Forward k ++ repeat Backward j) ++ [Forward])) s (titer_new t)) None = nth_error (map f (s t)) (k - j).
Proof. intros E R f s t k j H. rewrite C96_moves, last_last, place_app, place_forward, place_backward; [reflexivity|lia]. Qed.
Print Assumptions C96_back.
Definition it_store : @store nat := fun t => if t =? 0 then [5; 6; 7] else [8].
Example C96_moves_case : titer_run S (map op_of [Backward; Forward; Forward; Backward; Forward; Forward; Forward; Backward; Forward]) it_store (titer_new 0) = [Some 6; Some 7; Some 7; Some 8; None; Some 8].
Proof. reflexivity. Qed.

(** While events are only added to a trace, each is given once and in order: the results are the first ones of the trace as it is in the end.  (If
    None was given before more events came, they are still given by the next steps.) *)
Fixpoint final {E} (ops : list (@titer_op E)) (s : store) : store :=
  match ops with [] => s | TChange f :: r => final r (f s) | _ :: r => final r s end.
Fixpoint only_added {E} (t : nat) (ops : list (@titer_op E)) (s : store) : Prop :=
  match ops with [] => True | TNext :: r => only_added t r s | TBack :: r => False | TChange f :: r => (exists more, f s t = s t ++ more) /\ only_added t r (f s) end.
Lemma final_grows E t (ops : list (@titer_op E)) : forall s, only_added t ops s -> exists more, final ops s t = s t ++ more.
Proof.
  induction ops as [|[| |g] ops IH]; intros s H; cbn [final only_added] in *; [exists []; rewrite app_nil_r; reflexivity|apply IH; exact H|contradiction|].
  destruct H as ((more & Em) & H). destruct (IH (g s) H) as (more' & E'). exists (more ++ more'). rewrite E', Em, app_assoc. reflexivity.
Qed.
Theorem C96_added : forall E R (f : E -> R) t ops s, only_added t ops s ->
  exists k, somes (titer_run f ops s (titer_new t)) = firstn k (map f (final ops s t)) /\ (titer_run f (ops ++ [TNext]) s (titer_new t) = titer_run f ops s (titer_new t) ++ [nth_error (map f (final ops s t)) k]).
Proof.
  intros E R f t ops s H. unfold titer_new.
  assert (G : forall p, p <= length (s t) -> exists k, somes (titer_run f ops s (mkTIter t p)) = firstn k (skipn p (map f (final ops s t))) /\ titer_run f (ops ++ [TNext]) s (mkTIter t p) = titer_run f ops s (mkTIter t p) ++ [nth_error (map f (final ops s t)) (p + k)]).
  2:{ destruct (G 0 (Nat.le_0_l _)) as (k & A & B). exists k. split; [exact A|exact B]. }
  revert s H. induction ops as [|[| |g] ops IH]; intros s H p Hp; cbn [app titer_run final only_added] in *.
  - exists 0. split; [reflexivity|]. unfold titer_next. cbn [ti_trace ti_index]. rewrite Nat.add_0_r. destruct (nth_error (s t) p) as [e|] eqn:E1; cbn.
    + rewrite (map_nth_error f _ _ E1). reflexivity.
    + apply nth_error_None in E1. replace (nth_error (map f (s t)) p) with (@None R); [reflexivity|]. symmetry. apply nth_error_None. rewrite map_length. exact E1.
  - unfold titer_next. cbn [ti_trace ti_index]. destruct (nth_error (s t) p) as [e|] eqn:E1.
    + assert (Lp : p < length (s t)) by (apply nth_error_Some; congruence). destruct (IH s H (p + 1) ltac:(lia)) as (k & A & B). exists (S k). cbn [somes flat_map app]. fold (somes (titer_run f ops s (mkTIter t (p + 1)))). rewrite A, B.
      replace (p + S k) with (p + 1 + k) by lia. split; [|reflexivity]. destruct (final_grows E t ops s H) as (more & Em).
      assert (E2 : nth_error (map f (final ops s t)) p = Some (f e)) by (apply map_nth_error; rewrite Em, nth_error_app1; assumption).
      replace (p + 1) with (S p) by lia. revert E2. generalize (map f (final ops s t)). clear. induction p as [|p IH]; intros [|y l]; cbn; try discriminate; [intros [= ->]; reflexivity|apply IH].
    + destruct (IH s H p Hp) as (k & A & B). exists k. cbn [somes flat_map app]. fold (somes (titer_run f ops s (mkTIter t p))). rewrite A, B. split; reflexivity.
  - contradiction.
  - destruct H as ((more & Em) & H). apply IH; [exact H|]. rewrite Em, app_length. lia.
Qed.
Print Assumptions C96_added.
Example C96_added_case : let push x : @titer_op nat := TChange (fun s t => if t =? 0 then s t ++ [x] else s t) in
  only_added 0 [TNext; TNext; TNext; TNext; push 9; TNext] it_store /\ titer_run S [TNext; TNext; TNext; TNext; push 9; TNext] it_store (titer_new 0) = [Some 6; Some 7; Some 8; None; Some 10].
Proof. split; [cbn; repeat split; exists [9]; reflexivity|reflexivity]. Qed.
(** Not true: that an event which stays in the trace is given, if others are removed while going over it. *)
Theorem C96_removed_refuted : exists (s : @store nat) (g : store -> store) x, In x (s 0) /\ In x (g s 0) /\ (forall y, In y (g s 0) -> In y (s 0)) /\
  ~ In (Some x) (titer_run (fun y => y) [TNext; TChange g; TNext; TNext] s (titer_new 0)).
Proof.
  exists it_store, (fun s t => tl (s t)), 6. split; [cbn; tauto|]. split; [cbn; tauto|]. split; [cbn; tauto|]. cbn. intros [H|[H|[H|[]]]]; discriminate.
Qed.
Print Assumptions C96_removed_refuted.

(** Going over a whole log gives the results for all events of all traces, whatever the log is. *)
Lemma trace_collect E R (f : E -> R) s t : forall n fuel p, length (s t) - p = n -> n < fuel -> titer_collect f fuel s (mkTIter t p) = Ok (map f (skipn p (s t))).
Proof.
  induction n as [|n IH]; intros [|fuel] p Hn Hf; try lia; cbn [titer_collect]; unfold titer_next; cbn [ti_trace ti_index]; destruct (nth_error (s t) p) as [e|] eqn:E1.
  - assert (p < length (s t)) by (apply nth_error_Some; congruence). lia.
  - apply nth_error_None in E1. rewrite skipn_all2 by exact E1. reflexivity.
  - rewrite (IH fuel (p + 1)) by lia. cbn [bind]. replace (p + 1) with (S p) by lia. f_equal. revert E1. generalize (s t). clear. induction p as [|p IH]; intros [|y l]; cbn; try discriminate; [intros [= ->]; reflexivity|apply IH].
  - apply nth_error_None in E1. lia.
Qed.
Theorem C96_whole_log : forall E R (f : E -> R) s log fuel, length log < fuel -> (forall t, In t log -> length (s t) + length log < fuel) ->
  liter_collect f fuel s log 0 = Ok (map (fun t => map f (s t)) log).
Proof.
  intros E R f s log fuel Hf Ht.
  assert (G : forall n fuel p, length log - p = n -> n < fuel -> (forall t, In t log -> length (s t) + n < fuel) -> liter_collect f fuel s log p = Ok (map (fun t => map f (s t)) (skipn p log))).
  { clear fuel Hf Ht. induction n as [|n IH]; intros [|fuel] p Hn Hf Ht; try lia; cbn [liter_collect]; unfold liter_next; destruct (nth_error log p) as [t|] eqn:E1.
    - assert (p < length log) by (apply nth_error_Some; congruence). lia.
    - apply nth_error_None in E1. rewrite skipn_all2 by exact E1. reflexivity.
    - assert (It := nth_error_In _ _ E1). unfold titer_new. rewrite (trace_collect E R f s t (length (s t)) (S fuel) 0); [|lia|specialize (Ht t It); lia]. cbn [bind skipn].
      rewrite (IH fuel (p + 1)); [|lia|lia|intros u Hu; specialize (Ht u Hu); lia]. cbn [bind]. replace (p + 1) with (S p) by lia. f_equal. revert E1. generalize log. clear. intros log. revert log. induction p as [|p IH]; intros [|y l]; cbn; try discriminate; [intros [= ->]; reflexivity|apply IH].
    - apply nth_error_None in E1. lia. }
  rewrite (G (length log) fuel 0); [reflexivity|lia|exact Hf|exact Ht].
Qed.
Print Assumptions C96_whole_log.
Example C96_whole_log_case : liter_collect S 10 it_store [0; 1; 0] 0 = Ok [[6; 7; 8]; [9]; [6; 7; 8]].
Proof. reflexivity. Qed.

(** A log from names has these names, and the times of the events of each trace start at the first date and go up by one second. *)
Lemma simple_fold raw : forall events current, fst (fold_left (fun '(events, current) name => (events ++ [mkSimple name current], current + 1)%Z) raw (events, current)) =
  events ++ map (fun i => mkSimple (nth i raw []) (current + Z.of_nat i)) (seq 0 (length raw)).
Proof.
  induction raw as [|x raw IH]; intros events current; cbn [fold_left length seq map fst]; [symmetry; apply app_nil_r|]. rewrite IH, <- app_assoc. cbn [app nth]. rewrite Z.add_0_r. do 2 f_equal.
  rewrite <- seq_shift, map_map. apply map_ext. intros i. f_equal. lia.
Qed.
Theorem C96_simple : forall start raw, simple_raw (simple_log start raw) = raw /\
  forall i t, nth_error raw i = Some t -> exists events, nth_error (simple_log start raw) i = Some events /\ length events = length t /\
  forall j name, nth_error t j = Some name -> nth_error events j = Some (mkSimple name (start + Z.of_nat j)).
Proof.
  intros start raw. assert (T : forall t, simple_trace start t = map (fun i => mkSimple (nth i t []) (start + Z.of_nat i)) (seq 0 (length t))) by (intros t; unfold simple_trace; rewrite simple_fold; reflexivity).
  split.
  - unfold simple_raw, simple_log. rewrite map_map. rewrite <- (map_id raw) at 2. apply map_ext. intros t. rewrite T, map_map. cbn [se_name]. clear. induction t as [|x t IH]; [reflexivity|]. cbn [length seq map nth]. f_equal. rewrite <- seq_shift, map_map. exact IH.
  - intros i t Hi. exists (simple_trace start t). split; [apply map_nth_error, Hi|]. rewrite T. split; [rewrite map_length, seq_length; reflexivity|]. intros j name Hj.
    assert (Lj : j < length t) by (apply nth_error_Some; congruence). rewrite (map_nth_error _ j (seq 0 (length t)) (d := j)).
    + do 2 f_equal. apply nth_error_nth. exact Hj.
    + rewrite (nth_error_nth' _ 0) by (rewrite seq_length; exact Lj). rewrite seq_nth by exact Lj. reflexivity.
Qed.
Print Assumptions C96_simple.
Theorem C96_setters : forall e name time, se_name (simple_set_name e name) = name /\ se_time (simple_set_name e name) = se_time e /\ se_time (simple_set_time e time) = time /\ se_name (simple_set_time e time) = se_name e.
Proof. intros e name time. repeat split. Qed.
Print Assumptions C96_setters.
Example C96_simple_case : simple_log (-3) [[str "a"; str "b"]; []; [str "a"]] = [[mkSimple (str "a") (-3); mkSimple (str "b") (-2)]; []; [mkSimple (str "a") (-3)]].
Proof. reflexivity. Qed.

(** A graph with texts has the same nodes and edges, each with the text of what it had, or nothing if it had nothing. *)
Lemma dget_map {V W} (h : V -> W) (d : dict N V) k : dget N.eq_dec (map (fun kv => (fst kv, h (snd kv))) d) k = option_map h (dget N.eq_dec d k).
Proof. induction d as [|[k' v] d IH]; [reflexivity|]. cbn. destruct (N.eq_dec k k'); [reflexivity|exact IH]. Qed.
Theorem C96_default_graph : forall A B (show_node : A -> pystr) (show_edge : B -> pystr) g, let g' := to_default_graph show_node show_edge g in
  dkeys (gg_nodes g') = dkeys (gg_nodes g) /\ dkeys (gg_connections g') = dkeys (gg_connections g) /\
  (forall id n, dget N.eq_dec (gg_nodes g) id = Some n -> exists n', dget N.eq_dec (gg_nodes g') id = Some n' /\ gn_id n' = gn_id n /\
     (gn_data n = None -> gn_data n' = None) /\ (forall d, gn_data n = Some d -> gn_data n' = Some (show_node d))) /\
  (forall a c, dget N.eq_dec (gg_connections g) a = Some c -> exists c', dget N.eq_dec (gg_connections g') a = Some c' /\ dkeys c' = dkeys c /\
     (forall b, dget N.eq_dec c b = Some None -> dget N.eq_dec c' b = Some None) /\ (forall b d, dget N.eq_dec c b = Some (Some d) -> dget N.eq_dec c' b = Some (Some (show_edge d)))).
Proof.
  intros A B sn se g. cbn zeta. unfold to_default_graph, default_nodes, default_connections, dkeys. cbn [gg_nodes gg_connections]. rewrite !map_map. split; [reflexivity|]. split; [reflexivity|]. split.
  - intros id n H. rewrite (dget_map (fun n : gnode A => mkGNode (gn_id n) (match gn_data n with None => None | Some d => Some (sn d) end))), H. cbn [option_map]. eexists. split; [reflexivity|]. cbn [gn_id gn_data]. split; [reflexivity|]. split; [intros ->; reflexivity|intros d ->; reflexivity].
  - intros a c H. rewrite (dget_map (fun c : dict N (option B) => map (fun ld => (fst ld, match snd ld with None => None | Some d => Some (se d) end)) c)), H. cbn [option_map]. eexists. split; [reflexivity|]. rewrite map_map. split; [reflexivity|].
    split; [intros b Hb|intros b d Hb]; rewrite (dget_map (fun o : option B => match o with None => None | Some d => Some (se d) end)), Hb; reflexivity.
Qed.
Print Assumptions C96_default_graph.
(** A graph which has texts already stays as it is. *)
Theorem C96_default_graph_same : forall g, to_default_graph (fun s => s) (fun s => s) g = g.
Proof.
  intros [nodes conns]. unfold to_default_graph, default_nodes, default_connections. cbn [gg_nodes gg_connections]. f_equal.
  - rewrite <- (map_id nodes) at 2. apply map_ext. intros [k [i [d|]]]; reflexivity.
  - rewrite <- (map_id conns) at 2. apply map_ext. intros [k c]. cbn [fst snd]. apply (f_equal (pair k)). transitivity (map (fun x => x) c); [|apply map_id]. apply map_ext. intros [l [d|]]; reflexivity.
Qed.
Print Assumptions C96_default_graph_same.
Example C96_default_graph_case : to_default_graph (fun b : bool => if b then str "yes" else str "no") (fun s : pystr => s) (mkGGraph [(1%N, mkGNode 1 (Some true)); (2%N, mkGNode 2 None)] [(1%N, [(2%N, Some (str "x"))])]) =
  mkGGraph [(1%N, mkGNode 1 (Some (str "yes"))); (2%N, mkGNode 2 None)] [(1%N, [(2%N, Some (str "x"))])].
Proof. reflexivity. Qed.
