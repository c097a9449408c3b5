(** C84: what arrives from a BXES file written by the backend. *)
From Coq Require Import Permutation Sorted.
From Verif Require Import Py PyFacts HashModel RXesModel BxesModel BxesSpec BxesProofs BxesProofs2 BxesProofs3 BxesProofs4 PnmlSpec.

Section Props.
  Variables date f32 f64 other : Type.
  Variables (nanos : date -> option Z) (of_nanos : Z -> date).
  Variables (date_eqb : date -> date -> bool) (f32_eqb : f32 -> f32 -> bool) (f64_eqb : f64 -> f64 -> bool).
  Notation elog := (elog date f32 f64).
  Notation blog := (blog f32 f64 other).
  Notation wlog := (write_event_log_to_bxes date f32 f64 other nanos date_eqb f32_eqb f64_eqb).
  Notation rlog := (read_bxes_into_xes_log date f32 f64 other of_nanos).
  Notation log_turns := (log_turns date f32 f64 nanos of_nanos date_eqb f32_eqb f64_eqb).
  Notation tables := (tables date f32 f64).

  (** A written file can be read again, and what is read differs from the log as [log_turns] says only: dates are rounded, time
      stamps are dates, and attributes equal to the globals of events are gone. *)
  Theorem C84_arrives (log : elog) b : tables log -> wlog log = Ok b -> exists log', rlog b = Ok log' /\ log_turns log log'.
  Proof. apply roundtrip_proof. Qed.
  (** A file is written exactly when all scopes of globals are known and all dates fit into 64 bit of nanoseconds. *)
  Theorem C84_when (log : elog) : (exists b, wlog log = Ok b) <-> known_scopes date f32 f64 log /\ dates_fit date f32 f64 nanos date_eqb f32_eqb f64_eqb log.
  Proof. apply when_proof. Qed.
  (** Otherwise there is a panic, for a date, or an error, for a scope. *)
  Theorem C84_errors (log : elog) e : wlog log = Err e ->
    (e = AssertionErr /\ ~ dates_fit date f32 f64 nanos date_eqb f32_eqb f64_eqb log) \/ (e = ValueError /\ ~ known_scopes date f32 f64 log).
  Proof. apply errors_proof. Qed.
  (** Nothing changes for logs without time stamps, without attributes equal to defaults, and with dates in whole nanoseconds. *)
  Theorem C84_exact (log : elog) b : tables log -> all_stays date f32 f64 nanos of_nanos date_eqb f32_eqb f64_eqb log -> wlog log = Ok b ->
    exists log', rlog b = Ok log' /\ same_log date f32 f64 log log'.
  Proof.
    intros T S W. destruct (C84_arrives log b T W) as (log' & R & L). exists log'. split; [exact R|]. revert L. apply exact_proof. exact S.
  Qed.
  (** The file does not depend on the order of hash tables. *)
  Theorem C84_same (log log' : elog) : tables log -> tables log' -> same_log date f32 f64 log log' -> wlog log = wlog log'.
  Proof. apply same_file_proof. Qed.
  (** In the file each variant stands for one trace, and events have their attributes under strings, in order, none twice. *)
  Theorem C84_file (log : elog) b : tables log -> wlog log = Ok b -> forall v, In v (bl_variants _ _ _ b) -> b_count _ _ _ v = 1%N /\
    forall e, In e (b_events _ _ _ v) -> exists kvs, b_attributes _ _ _ e = Some (map (fun kv => (BString _ _ _ (fst kv), snd kv)) kvs) /\ NoDup (map fst kvs) /\ sorted_on fst kvs.
  Proof. apply file_proof. Qed.
  (** A file, also one written by others, can be read exactly when names and keys are strings and values are understood. *)
  Theorem C84_read (b : blog) : (exists log, rlog b = Ok log) <-> readable f32 f64 other b.
  Proof. apply read_proof. Qed.
  (** A value of a file which is read and written again is the same one, if dates keep nanoseconds. *)
  Theorem C84_values (v : bval f32 f64 other) : (forall z, nanos (of_nanos z) = Some z) -> understood f32 f64 other v ->
    exists w, bxes_value_to_payload_value date f32 f64 other of_nanos v = Ok w /\ payload_value_to_bxes_value date f32 f64 other nanos w = Ok v.
  Proof. apply value_back. Qed.
  (** Reading gives one trace for each variant, with as many events. *)
  Theorem C84_variants (b : blog) log : rlog b = Ok log -> map (@length _) (e_traces _ _ _ log) = map (fun v => length (b_events _ _ _ v)) (bl_variants _ _ _ b).
  Proof. apply variants_proof. Qed.
End Props.

(** * A case: dates are numbers of nanoseconds, those from 2^63 on do not fit *)
Definition nanos_ex (d : Z) : option Z := if (d <? 2 ^ 63)%Z then Some d else None.
Notation V x := (x Z unit unit) (only parsing).
Notation write_ex := (write_event_log_to_bxes Z unit unit unit nanos_ex Z.eqb (fun _ _ => true) (fun _ _ => true)).
Notation read_ex := (read_bxes_into_xes_log Z unit unit unit (fun z => z)).
Definition event_ex (name : string) (t : Z) payload := mkEEvent Z unit unit (str name) t payload.
Definition log_ex : elog Z unit unit :=
  mkELog _ _ _ [[event_ex "a" 5 [(str "who", V EString (str "me")); (str "cost", V EInt64 7); (str "life", V ELifecycle (XStandard XS_Complete))];
                 event_ex "b" 6 [(str "cost", V EInt64 1); (str "at", V ETimestamp 9); (str "due", V EDate 8%Z)]]; []]
    [(str "event", [(str "cost", V EInt64 1)]); (str "log", [])] [mkXExt (str "Time") (str "time") (str "http")] [mkXCls (str "Name") [str "concept:name"]]
    [(str "creator", V EString (str "x")); (str "creator", V EBool true)].
Definition file_ex : blog unit unit unit :=
  mkBLog _ _ _ (Some [([BString _ _ _ (str "concept:name")], BString _ _ _ (str "Name"))])
    (Some [mkBExt _ _ _ (BString _ _ _ (str "Time")) (BString _ _ _ (str "time")) (BString _ _ _ (str "http"))])
    (Some [(KEvent, [(BString _ _ _ (str "cost"), BInt64 _ _ _ 1)]); (KLog, [])])
    (Some [(BString _ _ _ (str "creator"), BString _ _ _ (str "x")); (BString _ _ _ (str "creator"), BBool _ _ _ true)])
    [mkBVariant _ _ _ 1
       [mkBEvent _ _ _ (BString _ _ _ (str "a")) 5 (Some [(BString _ _ _ (str "cost"), BInt64 _ _ _ 7); (BString _ _ _ (str "life"), BStandardLifecycle _ _ _ BS_Complete);
                                                           (BString _ _ _ (str "who"), BString _ _ _ (str "me"))]);
        mkBEvent _ _ _ (BString _ _ _ (str "b")) 6 (Some [(BString _ _ _ (str "at"), BTimestamp _ _ _ 9); (BString _ _ _ (str "due"), BTimestamp _ _ _ 8)])];
     mkBVariant _ _ _ 1 []].
Example C84_case : write_ex log_ex = Ok file_ex /\
  read_ex file_ex = Ok (mkELog _ _ _
    [[event_ex "a" 5 [(str "cost", V EInt64 7); (str "life", V ELifecycle (XStandard XS_Complete)); (str "who", V EString (str "me"))];
      event_ex "b" 6 [(str "at", V EDate 9%Z); (str "due", V EDate 8%Z)]]; []]
    [(str "event", [(str "cost", V EInt64 1)]); (str "log", [])] [mkXExt (str "Time") (str "time") (str "http")] [mkXCls (str "Name") [str "concept:name"]]
    [(str "creator", V EString (str "x")); (str "creator", V EBool true)]).
Proof. split; vm_compute; reflexivity. Qed.
Example C84_case_tables : tables Z unit unit log_ex.
Proof.
  split; [|split].
  - vm_compute. repeat constructor; cbn; intuition discriminate.
  - intros s g [[= <- <-]|[[= <- <-]|[]]]; vm_compute; repeat constructor; cbn; intuition discriminate.
  - intros t e [<-|[<-|[]]] He; [|destruct He]. destruct He as [<-|[<-|[]]]; vm_compute; repeat constructor; cbn; intuition discriminate.
Qed.
(** A log of which nothing is lost. *)
Definition exact_ex : elog Z unit unit :=
  mkELog _ _ _ [[event_ex "a" 5 [(str "who", V EString (str "me")); (str "cost", V EInt64 7)]]] [(str "event", [(str "cost", V EInt64 1)])] [] [] [(str "at", V EDate 3%Z)].
Example C84_exact_case : tables Z unit unit exact_ex /\ all_stays Z unit unit nanos_ex (fun z => z) Z.eqb (fun _ _ => true) (fun _ _ => true) exact_ex /\
  exists b, write_ex exact_ex = Ok b.
Proof.
  assert (S : forall d z, nanos_ex d = Some z -> z = d) by (intros d z; unfold nanos_ex; destruct (d <? 2 ^ 63)%Z; congruence).
  split; [|split].
  - split; [|split].
    + vm_compute. repeat constructor; cbn; intuition discriminate.
    + intros s g [[= <- <-]|[]]; vm_compute; repeat constructor; cbn; intuition discriminate.
    + intros t e [<-|[]] [<-|[]]; vm_compute; repeat constructor; cbn; intuition discriminate.
  - split; [|split].
    + intros s g k v [[= <- <-]|[]] [[= <- <-]|[]]. split; congruence.
    + intros k v [[= <- <-]|[]]. split; [discriminate|]. intros d z _. apply S.
    + intros t e [<-|[]] [<-|[]]. split; [intros z; apply S|]. intros k v [[= <- <-]|[[= <- <-]|[]]]; (split; [split; congruence|]); intros (g & d & G & D & Q).
      * unfold value_of in G. vm_compute in G. injection G as <-. vm_compute in D. discriminate.
      * unfold value_of in G. vm_compute in G. injection G as <-. vm_compute in D. injection D as <-. inversion Q.
  - eexists. vm_compute. reflexivity.
Qed.
(** The same log with its tables in another order. *)
Definition swapped_ex : elog Z unit unit :=
  mkELog _ _ _ [[event_ex "a" 5 [(str "cost", V EInt64 7); (str "who", V EString (str "me"))]]] [(str "event", [(str "cost", V EInt64 1)])] [] [] [(str "at", V EDate 3%Z)].
Example C84_same_case : same_log Z unit unit exact_ex swapped_ex /\ exact_ex <> swapped_ex.
Proof.
  split; [|discriminate]. split; try reflexivity.
  - intros s. cbn [exact_ex swapped_ex e_globals]. destruct (dget str_eq_dec _ s) as [g|] eqn:E; [|exact E]. exists g. split; [exact E|]. intros k. reflexivity.
  - repeat constructor. intros k. cbn [event_ex e_payload dget]. destruct (str_eq_dec k (str "who")) as [->|H]; [|reflexivity].
    destruct (str_eq_dec (str "who") (str "cost")) as [E|_]; [discriminate E|]. reflexivity.
Qed.
(** Dates which do not fit, of an event or of an attribute, and globals of a scope which is not known. *)
Definition far : Z := 2 ^ 63.
Definition far_ex (kind : string) (payload : dict pystr (epv Z unit unit)) (t : Z) : elog Z unit unit := mkELog _ _ _ [[event_ex "a" t payload]] [(str kind, [(str "k", V EInt64 1)])] [] [] [].
Example C84_errors_case : write_ex (far_ex "event" [] far) = Err AssertionErr /\ write_ex (far_ex "event" [(str "d", V EDate far)] 0) = Err AssertionErr /\
  write_ex (far_ex "meta" [] 0) = Err ValueError /\ exists b, write_ex (far_ex "trace" [(str "d", V EDate 5%Z)] 0) = Ok b.
Proof. repeat split; try (vm_compute; reflexivity). eexists. vm_compute. reflexivity. Qed.
(** Files of others. *)
Definition other_file (count : N) (name : bval unit unit unit) (v : bval unit unit unit) : blog unit unit unit :=
  mkBLog _ _ _ None None None None [mkBVariant _ _ _ count [mkBEvent _ _ _ name 5 None; mkBEvent _ _ _ name 6 (Some [(BString _ _ _ (str "k"), v)])]].
Example C84_read_case : read_ex (other_file 3 (BString _ _ _ (str "a")) (BOther _ _ _ tt)) = Err AssertionErr /\
  read_ex (other_file 3 (BInt32 _ _ _ 1) (BInt32 _ _ _ 1)) = Err ValueError /\
  read_ex (other_file 3 (BString _ _ _ (str "a")) (BUint32 _ _ _ 1)) = Ok (mkELog _ _ _ [[event_ex "a" 5 []; event_ex "a" 6 [(str "k", V EUint32 1)]]] [] [] [] []).
Proof. repeat split; vm_compute; reflexivity. Qed.
Example C84_readable_case : readable unit unit unit (other_file 3 (BString _ _ _ (str "a")) (BUint32 _ _ _ 1)).
Proof. apply (C84_read Z unit unit unit (fun z => z)). eexists. vm_compute. reflexivity. Qed.

Example C84_values_case : understood unit unit unit (BTimestamp _ _ _ 4) /\ understood unit unit unit (BBrafLifecycle _ _ _ BB_Open) /\ forall z : Z, Some z = Some z.
Proof. repeat split; discriminate. Qed.

(** * What one may expect, but which is not so *)
(** An attribute of an event arrives. *)
Theorem C84_attributes_refuted : exists log b log' t e k t' e', tables Z unit unit log /\ write_ex log = Ok b /\ read_ex b = Ok log' /\
  e_traces _ _ _ log = [t] /\ t = [e] /\ dget str_eq_dec (e_payload _ _ _ e) k = Some (V EInt64 1) /\
  e_traces _ _ _ log' = [t'] /\ t' = [e'] /\ dget str_eq_dec (e_payload _ _ _ e') k = None.
Proof.
  exists (far_ex "event" [(str "k", V EInt64 1)] 0). do 2 eexists. do 2 eexists. exists (str "k"). do 2 eexists. split.
  { split; [|split].
    - repeat constructor; cbn; intuition discriminate.
    - intros s g [[= <- <-]|[]]; repeat constructor; cbn; intuition discriminate.
    - intros t e [<-|[]] [<-|[]]; repeat constructor; cbn; intuition discriminate. }
  repeat split; vm_compute; reflexivity.
Qed.
(** Time stamps stay time stamps. *)
Theorem C84_stamps_refuted : exists log b log', tables Z unit unit log /\ write_ex log = Ok b /\ read_ex b = Ok log' /\
  e_props _ _ _ log = [(str "k", V ETimestamp 5)] /\ e_props _ _ _ log' = [(str "k", V EDate 5%Z)].
Proof.
  exists (mkELog _ _ _ [] [] [] [] [(str "k", V ETimestamp 5)]). do 2 eexists. split; [split; [constructor|split; [intros s g []|intros t e []]]|].
  repeat split; vm_compute; reflexivity.
Qed.
(** A variant which stands for several traces gives several traces. *)
Theorem C84_counts_refuted : exists b log, read_ex b = Ok log /\ map (b_count _ _ _) (bl_variants _ _ _ b) = [3%N] /\ length (e_traces _ _ _ log) = 1.
Proof. exists (other_file 3 (BString _ _ _ (str "a")) (BUint32 _ _ _ 1)). eexists. repeat split; vm_compute; reflexivity. Qed.
(** What has been through a file once stays as it is: here the default turns into a date, and then the attribute equals it. *)
Theorem C84_twice_refuted : exists log b1 log1 b2 log2, tables Z unit unit log /\ write_ex log = Ok b1 /\ read_ex b1 = Ok log1 /\ write_ex log1 = Ok b2 /\ read_ex b2 = Ok log2 /\
  map (map (e_payload _ _ _)) (e_traces _ _ _ log1) = [[[(str "k", V EDate 5%Z)]]] /\ map (map (e_payload _ _ _)) (e_traces _ _ _ log2) = [[[]]].
Proof.
  exists (mkELog _ _ _ [[event_ex "a" 1 [(str "k", V EDate 5%Z)]]] [(str "event", [(str "k", V ETimestamp 5)])] [] [] []). do 4 eexists. split.
  { split; [|split].
    - repeat constructor; cbn; intuition discriminate.
    - intros s g [[= <- <-]|[]]; repeat constructor; cbn; intuition discriminate.
    - intros t e [<-|[]] [<-|[]]; repeat constructor; cbn; intuition discriminate. }
  repeat split; vm_compute; reflexivity.
Qed.

Print Assumptions C84_arrives.
Print Assumptions C84_when.
Print Assumptions C84_errors.
Print Assumptions C84_exact.
Print Assumptions C84_same.
Print Assumptions C84_file.
Print Assumptions C84_read.
Print Assumptions C84_values.
Print Assumptions C84_variants.
Print Assumptions C84_attributes_refuted.
Print Assumptions C84_stamps_refuted.
Print Assumptions C84_counts_refuted.
Print Assumptions C84_twice_refuted.
