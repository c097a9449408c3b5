(** Writing and reading of BXES files in the backend: src/rust/ficus_backend/src/event_log/bxes/ and
    pipelines/xes_parts.rs 41-68.  A file is the value of type BxesEventLog given to write_bxes and returned by read_bxes of
    the bxes library, which are not modelled.  A panic is [Err AssertionErr], a ConversionError is [Err ValueError].  Hash
    maps are association lists in some order; a missing payload counts as an empty one. *)
From Verif Require Import Py HashModel WireModel RXesModel.

(** * Lifecycles *)
(** XesBrafLifecycle, event_log/core/event/lifecycle/braf_lifecycle.rs 8-29. *)
Inductive xbraf :=
| XB_Unspecified | XB_Closed | XB_ClosedCancelled | XB_ClosedCancelledAborted | XB_ClosedCancelledError
| XB_ClosedCancelledExited | XB_ClosedCancelledObsolete | XB_ClosedCancelledTerminated | XB_Completed
| XB_CompletedFailed | XB_CompletedSuccess | XB_Open | XB_OpenNotRunning | XB_OpenNotRunningAssigned
| XB_OpenNotRunningReserved | XB_OpenNotRunningSuspendedAssigned | XB_OpenNotRunningSuspendedReserved
| XB_OpenRunning | XB_OpenRunningInProgress | XB_OpenRunningSuspended.
(** XesStandardLifecycle, lifecycle/standard_lifecycle.rs 8-23. *)
Inductive xstandard :=
| XS_Unspecified | XS_Assign | XS_AteAbort | XS_Autoskip | XS_Complete | XS_ManualSkip | XS_PiAbort | XS_ReAssign
| XS_Resume | XS_Schedule | XS_Start | XS_Suspend | XS_Unknown | XS_Withdraw.
(** Lifecycle, lifecycle/xes_lifecycle.rs 4-7. *)
Inductive xlifecycle := XStandard (s : xstandard) | XBraf (b : xbraf).
(** bxes::models::BrafLifecycle, as used in bxes/conversions.rs 59-80. *)
Inductive bbraf :=
| BB_Unspecified | BB_Closed | BB_ClosedCancelled | BB_ClosedCancelledAborted | BB_ClosedCancelledError
| BB_ClosedCancelledExited | BB_ClosedCancelledObsolete | BB_ClosedCancelledTerminated | BB_Completed
| BB_CompletedFailed | BB_CompletedSuccess | BB_Open | BB_OpenNotRunning | BB_OpenNotRunningAssigned
| BB_OpenNotRunningReserved | BB_OpenNotRunningSuspendedAssigned | BB_OpenNotRunningSuspendedReserved
| BB_OpenRunning | BB_OpenRunningInProgress | BB_OpenRunningSuspended.
(** bxes::models::StandardLifecycle, as used in bxes/conversions.rs 81-96. *)
Inductive bstandard :=
| BS_Unspecified | BS_Assign | BS_AteAbort | BS_Autoskip | BS_Complete | BS_ManualSkip | BS_PiAbort | BS_ReAssign
| BS_Resume | BS_Schedule | BS_Start | BS_Suspend | BS_Unknown | BS_Withdraw.
(** bxes::models::Lifecycle, as used in bxes/conversions.rs 59, 81. *)
Inductive blifecycle := BStandard (s : bstandard) | BBraf (b : bbraf).
(** convert_bxes_to_xes_lifecycle, bxes/conversions.rs 57-98. *)
Definition braf_to_xes (l : bbraf) : xbraf :=
  match l with
  | BB_Unspecified => XB_Unspecified | BB_Closed => XB_Closed | BB_ClosedCancelled => XB_ClosedCancelled
  | BB_ClosedCancelledAborted => XB_ClosedCancelledAborted | BB_ClosedCancelledError => XB_ClosedCancelledError
  | BB_ClosedCancelledExited => XB_ClosedCancelledExited | BB_ClosedCancelledObsolete => XB_ClosedCancelledObsolete
  | BB_ClosedCancelledTerminated => XB_ClosedCancelledTerminated | BB_Completed => XB_Completed
  | BB_CompletedFailed => XB_CompletedFailed | BB_CompletedSuccess => XB_CompletedSuccess | BB_Open => XB_Open
  | BB_OpenNotRunning => XB_OpenNotRunning | BB_OpenNotRunningAssigned => XB_OpenNotRunningAssigned
  | BB_OpenNotRunningReserved => XB_OpenNotRunningReserved | BB_OpenNotRunningSuspendedAssigned => XB_OpenNotRunningSuspendedAssigned
  | BB_OpenNotRunningSuspendedReserved => XB_OpenNotRunningSuspendedReserved | BB_OpenRunning => XB_OpenRunning
  | BB_OpenRunningInProgress => XB_OpenRunningInProgress | BB_OpenRunningSuspended => XB_OpenRunningSuspended
  end.
(** bxes/conversions.rs 81-96. *)
Definition standard_to_xes (l : bstandard) : xstandard :=
  match l with
  | BS_Unspecified => XS_Unspecified | BS_Assign => XS_Assign | BS_AteAbort => XS_AteAbort
  | BS_Autoskip => XS_Autoskip | BS_Complete => XS_Complete | BS_ManualSkip => XS_ManualSkip
  | BS_PiAbort => XS_PiAbort | BS_ReAssign => XS_ReAssign | BS_Resume => XS_Resume | BS_Schedule => XS_Schedule
  | BS_Start => XS_Start | BS_Suspend => XS_Suspend | BS_Unknown => XS_Unknown | BS_Withdraw => XS_Withdraw
  end.
(** bxes/conversions.rs 57-98. *)
Definition convert_bxes_to_xes_lifecycle (l : blifecycle) : xlifecycle :=
  match l with BBraf b => XBraf (braf_to_xes b) | BStandard s => XStandard (standard_to_xes s) end.
(** convert_xes_to_bxes_lifecycle, bxes/conversions.rs 100-141. *)
Definition braf_to_bxes (l : xbraf) : bbraf :=
  match l with
  | XB_Unspecified => BB_Unspecified | XB_Closed => BB_Closed | XB_ClosedCancelled => BB_ClosedCancelled
  | XB_ClosedCancelledAborted => BB_ClosedCancelledAborted | XB_ClosedCancelledError => BB_ClosedCancelledError
  | XB_ClosedCancelledExited => BB_ClosedCancelledExited | XB_ClosedCancelledObsolete => BB_ClosedCancelledObsolete
  | XB_ClosedCancelledTerminated => BB_ClosedCancelledTerminated | XB_Completed => BB_Completed
  | XB_CompletedFailed => BB_CompletedFailed | XB_CompletedSuccess => BB_CompletedSuccess | XB_Open => BB_Open
  | XB_OpenNotRunning => BB_OpenNotRunning | XB_OpenNotRunningAssigned => BB_OpenNotRunningAssigned
  | XB_OpenNotRunningReserved => BB_OpenNotRunningReserved | XB_OpenNotRunningSuspendedAssigned => BB_OpenNotRunningSuspendedAssigned
  | XB_OpenNotRunningSuspendedReserved => BB_OpenNotRunningSuspendedReserved | XB_OpenRunning => BB_OpenRunning
  | XB_OpenRunningInProgress => BB_OpenRunningInProgress | XB_OpenRunningSuspended => BB_OpenRunningSuspended
  end.
(** bxes/conversions.rs 124-139. *)
Definition standard_to_bxes (l : xstandard) : bstandard :=
  match l with
  | XS_Unspecified => BS_Unspecified | XS_Assign => BS_Assign | XS_AteAbort => BS_AteAbort
  | XS_Autoskip => BS_Autoskip | XS_Complete => BS_Complete | XS_ManualSkip => BS_ManualSkip
  | XS_PiAbort => BS_PiAbort | XS_ReAssign => BS_ReAssign | XS_Resume => BS_Resume | XS_Schedule => BS_Schedule
  | XS_Start => BS_Start | XS_Suspend => BS_Suspend | XS_Unknown => BS_Unknown | XS_Withdraw => BS_Withdraw
  end.
(** bxes/conversions.rs 100-141. *)
Definition convert_xes_to_bxes_lifecycle (l : xlifecycle) : blifecycle :=
  match l with XBraf b => BBraf (braf_to_bxes b) | XStandard s => BStandard (standard_to_bxes s) end.

(** BxesGlobalKind, as used in bxes/conversions.rs 147-165. *)
Inductive bkind := KEvent | KTrace | KLog.
(** parse_entity_kind, bxes/conversions.rs 143-157. *)
Definition parse_entity_kind (s : pystr) : result bkind :=
  if str_eqb s (str "event") then Ok KEvent else if str_eqb s (str "trace") then Ok KTrace else if str_eqb s (str "log") then Ok KLog else Err ValueError.
(** global_type_to_string, bxes/conversions.rs 159-165. *)
Definition global_type_to_string (k : bkind) : pystr := match k with KEvent => str "event" | KTrace => str "trace" | KLog => str "log" end.

Section Bxes.
  (** DateTime<Utc>, f32 and f64, and the values of BXES which are not understood (Artifact, Drivers, SoftwareEventType). *)
  Variables date f32 f64 other : Type.
  (** DateTime::timestamp_nanos, which panics (None) out of the range of i64, and Utc.timestamp_nanos of chrono. *)
  Variables (nanos : date -> option Z) (of_nanos : Z -> date).
  (** == of DateTime<Utc>, f32 and f64. *)
  Variables (date_eqb : date -> date -> bool) (f32_eqb : f32 -> f32 -> bool) (f64_eqb : f64 -> f64 -> bool).

  (** EventPayloadValue, event_log/core/event/event.rs 8-22. *)
  Inductive epv :=
  | EDate (d : date) | EString (s : pystr) | EBool (b : bool) | EInt32 (z : Z) | EInt64 (z : Z) | EFloat32 (f : f32) | EFloat64 (f : f64)
  | EUint32 (z : Z) | EUint64 (z : Z) | EGuid (u : uuid) | ETimestamp (z : Z) | ELifecycle (l : xlifecycle).
  (** BxesValue, as used in bxes/conversions.rs 11-35. *)
  Inductive bval :=
  | BInt32 (z : Z) | BInt64 (z : Z) | BUint32 (z : Z) | BUint64 (z : Z) | BFloat32 (f : f32) | BFloat64 (f : f64) | BString (s : pystr) | BBool (b : bool)
  | BTimestamp (z : Z) | BBrafLifecycle (b : bbraf) | BStandardLifecycle (s : bstandard) | BGuid (u : uuid) | BOther (x : other).
  (** XesEventImpl, event_log/xes/xes_event.rs 13-16. *)
  Record eevent := mkEEvent { e_name : pystr; e_time : date; e_payload : dict pystr epv }.
  (** XesEventLogImpl, event_log/xes/xes_event_log.rs 16-22. *)
  Record elog := mkELog {
    e_traces : list (list eevent);
    e_globals : dict pystr (dict pystr epv);
    e_exts : list xext;
    e_classifiers : list xcls;
    e_props : list (pystr * epv) }.
  (** BxesEvent, as built in bxes/xes_to_bxes_converter.rs 68-79. *)
  Record bevent := mkBEvent { b_name : bval; b_time : Z; b_attributes : option (list (bval * bval)) }.
  (** BxesTraceVariant, as built in bxes/xes_to_bxes_converter.rs 53-63; the metadata is left out. *)
  Record bvariant := mkBVariant { b_count : N; b_events : list bevent }.
  (** BxesExtension, as built in bxes/xes_to_bxes_converter.rs 115-119. *)
  Record bext := mkBExt { be_name : bval; be_prefix : bval; be_uri : bval }.
  (** BxesEventLog, as built in bxes/xes_to_bxes_converter.rs 34-43. *)
  Record blog := mkBLog {
    bl_classifiers : option (list (list bval * bval));
    bl_exts : option (list bext);
    bl_globals : option (list (bkind * list (bval * bval)));
    bl_props : option (list (bval * bval));
    bl_variants : list bvariant }.

  (** * Writing *)
  (** timestamp_nanos with its panic, bxes/conversions.rs 39 and bxes/xes_to_bxes_converter.rs 70. *)
  Definition timestamp_nanos (d : date) : result Z := match nanos d with Some z => Ok z | None => Err AssertionErr end.
  (** payload_value_to_bxes_value, bxes/conversions.rs 37-55. *)
  Definition payload_value_to_bxes_value (v : epv) : result bval :=
    match v with
    | EDate d => bind (timestamp_nanos d) (fun z => Ok (BTimestamp z))
    | EString s => Ok (BString s)
    | EBool b => Ok (BBool b)
    | EInt32 z => Ok (BInt32 z)
    | EInt64 z => Ok (BInt64 z)
    | EFloat32 f => Ok (BFloat32 f)
    | EFloat64 f => Ok (BFloat64 f)
    | EUint32 z => Ok (BUint32 z)
    | EUint64 z => Ok (BUint64 z)
    | EGuid u => Ok (BGuid u)
    | ETimestamp z => Ok (BTimestamp z)
    | ELifecycle l => Ok match convert_xes_to_bxes_lifecycle l with BBraf b => BBrafLifecycle b | BStandard s => BStandardLifecycle s end
    end.
  (** PartialEq of EventPayloadValue, event_log/core/event/event.rs 8, with those of the lifecycles, which are derived. *)
  Definition xbraf_eq_dec (a b : xbraf) : {a = b} + {a <> b}. Proof. decide equality. Defined.
  (** lifecycle/standard_lifecycle.rs 7. *)
  Definition xstandard_eq_dec (a b : xstandard) : {a = b} + {a <> b}. Proof. decide equality. Defined.
  (** lifecycle/xes_lifecycle.rs 3. *)
  Definition xlifecycle_eq_dec (a b : xlifecycle) : {a = b} + {a <> b}. Proof. decide equality; [apply xstandard_eq_dec|apply xbraf_eq_dec]. Defined.
  (** event_log/core/event/event.rs 8. *)
  Definition epv_eqb (a b : epv) : bool :=
    match a, b with
    | EDate x, EDate y => date_eqb x y
    | EString x, EString y => str_eqb x y
    | EBool x, EBool y => Bool.eqb x y
    | EInt32 x, EInt32 y | EInt64 x, EInt64 y | EUint32 x, EUint32 y | EUint64 x, EUint64 y | ETimestamp x, ETimestamp y => Z.eqb x y
    | EFloat32 x, EFloat32 y => f32_eqb x y
    | EFloat64 x, EFloat64 y => f64_eqb x y
    | EGuid x, EGuid y => N.eqb x y
    | ELifecycle x, ELifecycle y => if xlifecycle_eq_dec x y then true else false
    | _, _ => false
    end.
  (** is_not_default_attribute, bxes/xes_to_bxes_converter.rs 84-94. *)
  Definition is_not_default (log : elog) (kv : pystr * epv) : bool :=
    match dget str_eq_dec (e_globals log) (str "event") with
    | Some globals => match dget str_eq_dec globals (fst kv) with Some default => negb (epv_eqb default (snd kv)) | None => true end
    | None => true
    end.
  (** kv_pair_to_bxes_pair, bxes/xes_to_bxes_converter.rs 148-153, and convert_to_bxes_global_attribute, 134-139. *)
  Definition kv_pair_to_bxes_pair (kv : pystr * epv) : result (bval * bval) := bind (payload_value_to_bxes_value (snd kv)) (fun v => Ok (BString (fst kv), v)).
  (** create_bxes_event, bxes/xes_to_bxes_converter.rs 67-82. *)
  Definition create_bxes_event (log : elog) (e : eevent) : result bevent :=
    bind (timestamp_nanos (e_time e)) (fun z =>
    bind (mapM kv_pair_to_bxes_pair (filter (is_not_default log) (sort_by_first (e_payload e)))) (fun attributes =>
    Ok (mkBEvent (BString (e_name e)) z (Some attributes)))).
  (** create_bxes_traces, bxes/xes_to_bxes_converter.rs 51-65. *)
  Definition create_bxes_traces (log : elog) : result (list bvariant) :=
    mapM (fun t => bind (mapM (create_bxes_event log) t) (fun es => Ok (mkBVariant 1 es))) (e_traces log).
  (** create_bxes_globals, bxes/xes_to_bxes_converter.rs 122-132, with ordered_globals, event_log/xes/xes_event_log.rs 67-81. *)
  Definition create_bxes_globals (log : elog) : result (list (bkind * list (bval * bval))) :=
    mapM (fun sc => bind (parse_entity_kind (fst sc)) (fun k => bind (mapM kv_pair_to_bxes_pair (snd sc)) (fun kvs => Ok (k, kvs))))
      (sort_by_first (map (fun sc => (fst sc, sort_by_first (snd sc))) (e_globals log))).
  (** create_bxes_classifiers and create_bxes_extensions, bxes/xes_to_bxes_converter.rs 96-120. *)
  Definition create_bxes_classifiers (log : elog) : list (list bval * bval) := map (fun c => (map BString (xc_keys c), BString (xc_name c))) (e_classifiers log).
  (** bxes/xes_to_bxes_converter.rs 110-120. *)
  Definition create_bxes_extensions (log : elog) : list bext := map (fun e => mkBExt (BString (xe_name e)) (BString (xe_prefix e)) (BString (xe_uri e))) (e_exts log).
  (** write_event_log_to_bxes, bxes/xes_to_bxes_converter.rs 33-49: what is given to write_bxes; create_bxes_properties is 141-146. *)
  Definition write_event_log_to_bxes (log : elog) : result blog :=
    bind (create_bxes_globals log) (fun globals =>
    bind (mapM kv_pair_to_bxes_pair (e_props log)) (fun props =>
    bind (create_bxes_traces log) (fun variants =>
    Ok (mkBLog (Some (create_bxes_classifiers log)) (Some (create_bxes_extensions log)) (Some globals) (Some props) variants)))).

  (** * Reading *)
  (** bxes_value_to_payload_value, bxes/conversions.rs 11-35. *)
  Definition bxes_value_to_payload_value (v : bval) : result epv :=
    match v with
    | BInt32 z => Ok (EInt32 z)
    | BInt64 z => Ok (EInt64 z)
    | BUint32 z => Ok (EUint32 z)
    | BUint64 z => Ok (EUint64 z)
    | BFloat32 f => Ok (EFloat32 f)
    | BFloat64 f => Ok (EFloat64 f)
    | BString s => Ok (EString s)
    | BBool b => Ok (EBool b)
    | BTimestamp z => Ok (EDate (of_nanos z))
    | BBrafLifecycle b => Ok (ELifecycle (convert_bxes_to_xes_lifecycle (BBraf b)))
    | BStandardLifecycle s => Ok (ELifecycle (convert_bxes_to_xes_lifecycle (BStandard s)))
    | BGuid u => Ok (EGuid u)
    | BOther _ => Err AssertionErr
    end.
  (** string_or_err, bxes/bxes_to_xes_converter.rs 129-135. *)
  Definition string_or_err (v : bval) : result pystr := match v with BString s => Ok s | _ => Err ValueError end.
  (** A pair of key and value, bxes/bxes_to_xes_converter.rs 83-90, 109-110, 157-165. *)
  Definition read_pair (kv : bval * bval) : result (pystr * epv) :=
    bind (string_or_err (fst kv)) (fun k => bind (bxes_value_to_payload_value (snd kv)) (fun v => Ok (k, v))).
  (** Pairs put into a HashMap one by one, bxes/bxes_to_xes_converter.rs 107-111, 155-166. *)
  Definition read_pairs (l : list (bval * bval)) : result (dict pystr epv) :=
    loopM (fun m kv => bind (read_pair kv) (fun kv => Ok (dset str_eq_dec m (fst kv) (snd kv)))) l [].
  (** create_xes_event with create_xes_payload, bxes/bxes_to_xes_converter.rs 137-172. *)
  Definition create_xes_event (e : bevent) : result eevent :=
    bind (string_or_err (b_name e)) (fun name =>
    bind (match b_attributes e with Some l => read_pairs l | None => Ok [] end) (fun payload => Ok (mkEEvent name (of_nanos (b_time e)) payload))).
  (** The value of an Option or nothing, bxes/bxes_to_xes_converter.rs 74-78, 103. *)
  Definition all_of {A} (o : option (list A)) : list A := match o with Some l => l | None => [] end.
  (** read_bxes_into_xes_log, bxes/bxes_to_xes_converter.rs 35-58, for what read_bxes gives; set_classifiers 60-67, set_properties
      83-90, set_extensions 92-100, set_globals 102-118. *)
  Definition read_bxes_into_xes_log (b : blog) : result elog :=
    bind (mapM (fun c => bind (string_or_err (snd c)) (fun n => bind (mapM string_or_err (fst c)) (fun ks => Ok (mkXCls n ks)))) (all_of (bl_classifiers b))) (fun classifiers =>
    bind (mapM read_pair (all_of (bl_props b))) (fun props =>
    bind (mapM (fun x => bind (string_or_err (be_name x)) (fun n => bind (string_or_err (be_uri x)) (fun u => bind (string_or_err (be_prefix x)) (fun p => Ok (mkXExt n p u)))))
            (all_of (bl_exts b))) (fun exts =>
    bind (loopM (fun m kg => bind (read_pairs (snd kg)) (fun g => Ok (dset str_eq_dec m (global_type_to_string (fst kg)) g))) (all_of (bl_globals b)) []) (fun globals =>
    bind (mapM (fun v => mapM create_xes_event (b_events v)) (bl_variants b)) (fun traces =>
    Ok (mkELog traces globals exts classifiers props)))))).
End Bxes.
