(** C73 and C74: logs from and to pm4py, what a pipeline starts with, and the patch of generated modules. *)
From Coq Require Import Lia.
From Verif Require Import Py PyFacts LogModel ConvModel ConvSpec ConvProofs.

(** Everything pm4py knows of a log is in the log made of it. *)
Theorem C73_from_pm4py_keeps_everything p :
  let l := from_pm4py_log p in
  Forall2 (fun pt t => t_events t = pt_events pt /\ t_attrs t = pt_attrs pt) (pl_traces p) (l_traces l) /\
  l_attrs l = pl_attrs p /\ l_extensions l = pl_extensions p /\ l_classifiers l = pl_classifiers p /\
  l_properties l = pl_properties p /\ l_globals l = pl_omni_present p.
Proof.
  cbv zeta. rewrite from_spec. cbn [l_traces l_attrs l_extensions l_classifiers l_properties l_globals].
  split; [|repeat split]. induction (pl_traces p) as [|t ts IH]; constructor; [split; reflexivity|exact IH].
Qed.
Print Assumptions C73_from_pm4py_keeps_everything.

(** The way back keeps the events and their order and nothing else. *)
Theorem C73_to_pm4py_keeps_events l : wf_events t_events (l_traces l) ->
  let p := to_pm4py_log l in
  Forall2 (fun t pt => pt_events pt = t_events t /\ pt_attrs pt = []) (l_traces l) (pl_traces p) /\
  pl_attrs p = [] /\ pl_properties p = [] /\ pl_classifiers p = [] /\ pl_extensions p = [] /\ pl_omni_present p = [].
Proof.
  intros H. cbv zeta. rewrite to_spec. cbn [pl_traces pl_attrs pl_properties pl_classifiers pl_extensions pl_omni_present].
  split; [|repeat split]. unfold wf_events in H. induction (l_traces l) as [|t ts IH]; constructor.
  - cbn [pt_events pt_attrs]. split; [|reflexivity]. rewrite <- (map_id (t_events t)) at 2. apply map_ext_in.
    intros e He. apply event_to_pm_id, (H t e (or_introl eq_refl) He).
  - apply IH. intros t' e Ht He. apply (H t' e (or_intror Ht) He).
Qed.
Print Assumptions C73_to_pm4py_keeps_events.

(** There and back: a log without metadata comes back as it was, and so does one of pm4py. *)
Theorem C73_round_trip l : wf_events t_events (l_traces l) ->
  (from_pm4py_log (to_pm4py_log l) = l <-> without_metadata l) /\
  map t_events (l_traces (from_pm4py_log (to_pm4py_log l))) = map t_events (l_traces l).
Proof.
  intros H. rewrite to_spec, from_spec. cbn [pl_traces pl_attrs pl_properties pl_classifiers pl_extensions pl_omni_present l_traces].
  rewrite map_map. cbn [pt_events pt_attrs].
  assert (E : map (fun t => mkTrace (map event_to_pm (t_events t)) []) (l_traces l) = map (fun t => mkTrace (t_events t) []) (l_traces l)).
  { apply map_ext_in. intros t Ht. f_equal. rewrite <- (map_id (t_events t)) at 2. apply map_ext_in. intros e He. apply event_to_pm_id, (H t e Ht He). }
  rewrite E. split; [|rewrite map_map; reflexivity].
  destruct l as [ts a b c d g]. unfold without_metadata. cbn [l_traces l_attrs l_extensions l_classifiers l_properties l_globals]. split.
  - intros X. injection X as X <- <- <- <- <-. repeat split. intros t Ht. rewrite <- X in Ht. apply in_map_iff in Ht as (t' & <- & _). reflexivity.
  - intros (-> & -> & -> & -> & -> & Ht). f_equal. rewrite <- (map_id ts) at 2. apply map_ext_in. intros [es at'] Hin. cbn. f_equal. symmetry. exact (Ht _ Hin).
Qed.
Print Assumptions C73_round_trip.

Theorem C73_round_trip_pm4py p : wf_events pt_events (pl_traces p) ->
  map pt_events (pl_traces (to_pm4py_log (from_pm4py_log p))) = map pt_events (pl_traces p).
Proof.
  intros H. rewrite from_spec, to_spec. cbn [pl_traces l_traces]. rewrite !map_map. cbn [pt_events t_events]. apply map_ext_in.
  intros t Ht. rewrite <- (map_id (pt_events t)) at 2. apply map_ext_in. intros e He. apply event_to_pm_id, (H t e Ht He).
Qed.
Print Assumptions C73_round_trip_pm4py.

(** A log that went to pm4py and back may have lost what was known of its traces. *)
Theorem C73_trace_attributes_survive_refuted : exists l, wf_events t_events (l_traces l) /\
  map t_attrs (l_traces (from_pm4py_log (to_pm4py_log l))) <> map t_attrs (l_traces l).
Proof.
  exists (mkLog [mkTrace [[(str "concept:name", VStr (str "A"))]] [(str "concept:name", VStr (str "case 1"))]] [] [] [] [] []).
  split; [|discriminate]. intros t e [<-|[]] [<-|[]]. cbn. repeat constructor; intros [].
Qed.
Print Assumptions C73_trace_attributes_survive_refuted.

(** Each start takes what it is for and refuses the rest. *)
Theorem C73_starts read i o :
  (read_log_part read i = Ok o <-> exists s l, i = InText s /\ read s = Ok l /\ o = Some l) /\
  (use_log_part i = Ok o <-> exists l, i = InLog l /\ o = Some l) /\
  (empty_start_part i = Ok o <-> o = None) /\
  ((forall s, i <> InText s) -> read_log_part read i = Err TypeError) /\ ((forall l, i <> InLog l) -> use_log_part i = Err ValueError).
Proof.
  split; [|split; [|split; [|split]]].
  - destruct i as [s|l|n]; cbn; split; try discriminate; try (intros (s' & l' & X & _); discriminate).
    + destruct (read s) as [l|e] eqn:E; cbn; [|discriminate]. intros X. injection X as <-. exists s, l. auto.
    + intros (s' & l' & X & E & ->). injection X as <-. rewrite E. reflexivity.
  - destruct i as [s|l|n]; cbn; split; try discriminate; try (intros (l' & X & _); discriminate).
    + intros X. injection X as <-. eauto.
    + intros (l' & X & ->). injection X as <-. reflexivity.
  - unfold empty_start_part. split; [intros X; injection X as <-; reflexivity|intros ->; reflexivity].
  - destruct i as [s|l|n]; try reflexivity. intros H. destruct (H s eq_refl).
  - destruct i as [s|l|n]; try reflexivity. intros H. destruct (H l eq_refl).
Qed.
Print Assumptions C73_starts.

Definition ex_pm : pm_log :=
  mkPL [mkPT [[(str "concept:name", VStr (str "A")); (str "cost", VInt 3)]; [(str "concept:name", VStr (str "B"))]] [(str "concept:name", VStr (str "case 1"))]; mkPT [] []]
       [(str "version", str "1.0")] [] [(str "name", [str "concept:name"])] [] [].
Example C73_hyps : wf_events t_events (l_traces (from_pm4py_log ex_pm)) /\ wf_events pt_events (pl_traces ex_pm) /\
  l_attrs (from_pm4py_log ex_pm) <> [] /\ map (fun t => length (t_events t)) (l_traces (from_pm4py_log (to_pm4py_log (from_pm4py_log ex_pm)))) = [2; 0].
Proof.
  assert (H : forall e, In e (flat_map pt_events (pl_traces ex_pm)) -> NoDup (dkeys e)).
  { intros e [<-|[<-|[]]]; cbn; repeat constructor; cbn; intuition discriminate. }
  split; [|split; [|split; [discriminate|reflexivity]]].
  - intros t e [<-|[<-|[]]] He; [|destruct He]. apply H. cbn in *. tauto.
  - intros t e [<-|[<-|[]]] He; [|destruct He]. apply H. cbn in *. tauto.
Qed.

(** The patch never fails, and its lines are those of the module, in order, with the package in front of the modules. *)
Theorem C74_patch_keeps_lines common package text :
  ~ In 10%N package -> (forall m, In m common -> ~ In 10%N m /\ ~ In 32%N m) ->
  exists text' ls ls', patch_text common package text = Ok text' /\ lines_of text ls /\ lines_of text' ls' /\
    Forall2 (patched_line common package) ls ls'.
Proof.
  intros Hp Hc. apply (patch_text_lines common package Hp (fun m H => proj1 (Hc m H)) (fun m H => proj2 (Hc m H)) (length text) text). lia.
Qed.
Print Assumptions C74_patch_keeps_lines.

(** A text has one list of lines. *)
Theorem C74_lines_determined text ls ls' : lines_of text ls -> lines_of text ls' -> ls = ls'.
Proof. intros H H'. rewrite (lines_unique _ _ H), (lines_unique _ _ H'). reflexivity. Qed.
Print Assumptions C74_lines_determined.

(** An import without an alias at the end of its line is left as it is. *)
Theorem C74_every_import_patched_refuted : exists common package text text',
  In (str "util_pb2") common /\ text = str "import util_pb2" ++ [10%N] /\ patch_text common package text = Ok text' /\ text' = text.
Proof. exists [str "util_pb2"], (str "ficus"). eexists. eexists. split; [left; reflexivity|]. split; [reflexivity|]. split; vm_compute; reflexivity. Qed.
Print Assumptions C74_every_import_patched_refuted.

(** The names of the generated modules: two of each file, no others. *)
Theorem C74_module_names names m : In m (common_files names) <-> exists n, In n names /\ (m = n ++ str "_pb2" \/ m = n ++ str "_pb2_grpc").
Proof.
  unfold common_files. rewrite in_flat_map. split.
  - intros (n & Hn & [<-|[<-|[]]]); exists n; auto.
  - intros (n & Hn & [->| ->]); exists n; split; cbn; auto.
Qed.
Print Assumptions C74_module_names.

Example C74_hyps : let common := common_files [str "util"; str "log"] in
  (forall m, In m common -> ~ In 10%N m /\ ~ In 32%N m) /\
  patch_text common (str "ficus.grpc") (str "import util_pb2 as util__pb2" ++ [10%N] ++ str "from log_pb2 import X" ++ [10%N] ++ str "x = 1") =
  Ok (str "import ficus.grpc.models.util_pb2 as util__pb2" ++ [10%N; 10%N] ++ str "from ficus.grpc.models.log_pb2 import X" ++ [10%N; 10%N] ++ str "x = 1").
Proof.
  split; [|vm_compute; reflexivity]. intros m Hm. repeat (destruct Hm as [<-|Hm]; [split; apply not10; reflexivity|]). destruct Hm.
Qed.
