(** What BXES files are said to hold, and what is said to arrive from them. *)
From Verif Require Import Py RXesModel BxesModel.

Section Spec.
  Variables date f32 f64 other : Type.
  Variables (nanos : date -> option Z) (of_nanos : Z -> date).
  Variables (date_eqb : date -> date -> bool) (f32_eqb : f32 -> f32 -> bool) (f64_eqb : f64 -> f64 -> bool).
  Notation epv := (epv date f32 f64).
  Notation elog := (elog date f32 f64).
  Notation eevent := (eevent date f32 f64).
  Notation bval := (bval f32 f64 other).
  Notation blog := (blog f32 f64 other).

  (** The value of a key, seen as a table. *)
  Definition value_of {V} (m : dict pystr V) (k : pystr) (v : option V) : Prop := dget str_eq_dec m k = v.
  (** Tables have no key twice. *)
  Definition tables (log : elog) : Prop :=
    NoDup (map fst (e_globals _ _ _ log)) /\
    (forall s g, In (s, g) (e_globals _ _ _ log) -> NoDup (map fst g)) /\
    (forall t e, In t (e_traces _ _ _ log) -> In e t -> NoDup (map fst (e_payload _ _ _ e))).

  (** Two values are equal: of the same kind and with equal contents; dates and floats as chrono and IEEE 754 say. *)
  Inductive equal : epv -> epv -> Prop :=
  | q_date a b : date_eqb a b = true -> equal (EDate _ _ _ a) (EDate _ _ _ b)
  | q_f32 a b : f32_eqb a b = true -> equal (EFloat32 _ _ _ a) (EFloat32 _ _ _ b)
  | q_f64 a b : f64_eqb a b = true -> equal (EFloat64 _ _ _ a) (EFloat64 _ _ _ b)
  | q_string s : equal (EString _ _ _ s) (EString _ _ _ s)
  | q_bool b : equal (EBool _ _ _ b) (EBool _ _ _ b)
  | q_i32 z : equal (EInt32 _ _ _ z) (EInt32 _ _ _ z)
  | q_i64 z : equal (EInt64 _ _ _ z) (EInt64 _ _ _ z)
  | q_u32 z : equal (EUint32 _ _ _ z) (EUint32 _ _ _ z)
  | q_u64 z : equal (EUint64 _ _ _ z) (EUint64 _ _ _ z)
  | q_guid u : equal (EGuid _ _ _ u) (EGuid _ _ _ u)
  | q_stamp z : equal (ETimestamp _ _ _ z) (ETimestamp _ _ _ z)
  | q_life l : equal (ELifecycle _ _ _ l) (ELifecycle _ _ _ l).
  (** [v] is what the globals of events say about the key [k]. *)
  Definition default (log : elog) (k : pystr) (v : epv) : Prop :=
    exists g d, value_of (e_globals _ _ _ log) (str "event") (Some g) /\ value_of g k (Some d) /\ equal d v.

  (** What becomes of a value on the way through a file: dates are rounded to nanoseconds since 1970, time stamps turn into dates. *)
  Inductive turns : epv -> epv -> Prop :=
  | t_date d z : nanos d = Some z -> turns (EDate _ _ _ d) (EDate _ _ _ (of_nanos z))
  | t_stamp z : turns (ETimestamp _ _ _ z) (EDate _ _ _ (of_nanos z))
  | t_same v : (forall d, v <> EDate _ _ _ d) -> (forall z, v <> ETimestamp _ _ _ z) -> turns v v.
  (** All values of a table turn into those of another one, apart from the ones which are left out. *)
  Definition table_turns (left_out : pystr -> epv -> Prop) (m m' : dict pystr epv) : Prop :=
    forall k, match dget str_eq_dec m k with
              | None => value_of m' k None
              | Some v => (left_out k v /\ value_of m' k None) \/ (~ left_out k v /\ exists w, turns v w /\ value_of m' k (Some w))
              end.
  Definition event_turns (log : elog) (e e' : eevent) : Prop :=
    e_name _ _ _ e' = e_name _ _ _ e /\
    (exists z, nanos (e_time _ _ _ e) = Some z /\ e_time _ _ _ e' = of_nanos z) /\
    table_turns (default log) (e_payload _ _ _ e) (e_payload _ _ _ e').
  (** A log turns into another one. *)
  Record log_turns (log log' : elog) : Prop := {
    lt_classifiers : e_classifiers _ _ _ log' = e_classifiers _ _ _ log;
    lt_exts : e_exts _ _ _ log' = e_exts _ _ _ log;
    lt_props : Forall2 (fun p p' => fst p' = fst p /\ turns (snd p) (snd p')) (e_props _ _ _ log) (e_props _ _ _ log');
    lt_globals : forall s, match dget str_eq_dec (e_globals _ _ _ log) s with
                           | None => value_of (e_globals _ _ _ log') s None
                           | Some g => exists g', value_of (e_globals _ _ _ log') s (Some g') /\ table_turns (fun _ _ => False) g g'
                           end;
    lt_traces : Forall2 (Forall2 (event_turns log)) (e_traces _ _ _ log) (e_traces _ _ _ log') }.

  (** Two logs which differ in the order of tables only. *)
  Definition same_table {V} (m m' : dict pystr V) : Prop := forall k, dget str_eq_dec m k = dget str_eq_dec m' k.
  Record same_log (log log' : elog) : Prop := {
    sl_classifiers : e_classifiers _ _ _ log' = e_classifiers _ _ _ log;
    sl_exts : e_exts _ _ _ log' = e_exts _ _ _ log;
    sl_props : e_props _ _ _ log' = e_props _ _ _ log;
    sl_globals : forall s, match dget str_eq_dec (e_globals _ _ _ log) s with
                           | None => value_of (e_globals _ _ _ log') s None
                           | Some g => exists g', value_of (e_globals _ _ _ log') s (Some g') /\ same_table g g'
                           end;
    sl_traces : Forall2 (Forall2 (fun e e' => e_name _ _ _ e' = e_name _ _ _ e /\ e_time _ _ _ e' = e_time _ _ _ e /\
                                              same_table (e_payload _ _ _ e) (e_payload _ _ _ e'))) (e_traces _ _ _ log) (e_traces _ _ _ log') }.

  (** A value fits into a file. *)
  Definition fits (v : epv) : Prop := forall d, v = EDate _ _ _ d -> nanos d <> None.
  (** Globals are for events, traces or the log. *)
  Definition known_scopes (log : elog) : Prop := forall s g, In (s, g) (e_globals _ _ _ log) -> s = str "event" \/ s = str "trace" \/ s = str "log".
  (** All dates which are to be written fit. *)
  Definition dates_fit (log : elog) : Prop :=
    (forall s g k v, In (s, g) (e_globals _ _ _ log) -> In (k, v) g -> fits v) /\
    (forall k v, In (k, v) (e_props _ _ _ log) -> fits v) /\
    (forall t e, In t (e_traces _ _ _ log) -> In e t ->
       nanos (e_time _ _ _ e) <> None /\ forall k v, In (k, v) (e_payload _ _ _ e) -> ~ default log k v -> fits v).

  (** A value stays as it is in a file. *)
  Definition stays (v : epv) : Prop :=
    (forall z, v <> ETimestamp _ _ _ z) /\ (forall d z, v = EDate _ _ _ d -> nanos d = Some z -> of_nanos z = d).
  (** All of a log stays as it is. *)
  Definition all_stays (log : elog) : Prop :=
    (forall s g k v, In (s, g) (e_globals _ _ _ log) -> In (k, v) g -> stays v) /\
    (forall k v, In (k, v) (e_props _ _ _ log) -> stays v) /\
    (forall t e, In t (e_traces _ _ _ log) -> In e t ->
       (forall z, nanos (e_time _ _ _ e) = Some z -> of_nanos z = e_time _ _ _ e) /\ forall k v, In (k, v) (e_payload _ _ _ e) -> stays v /\ ~ default log k v).

  (** A file which can be read: names and keys are strings, and values are of the kinds which are understood. *)
  Definition is_string (v : bval) : Prop := exists s, v = BString _ _ _ s.
  Definition understood (v : bval) : Prop := forall x, v <> BOther _ _ _ x.
  Definition pairs_fine (l : list (bval * bval)) : Prop := forall k v, In (k, v) l -> is_string k /\ understood v.
  (** Members of a list which may be missing. *)
  Definition member {A} (x : A) (o : option (list A)) : Prop := exists l, o = Some l /\ In x l.
  Record readable (b : blog) : Prop := {
    rd_classifiers : forall ks n, member (ks, n) (bl_classifiers _ _ _ b) -> is_string n /\ forall k, In k ks -> is_string k;
    rd_exts : forall x, member x (bl_exts _ _ _ b) -> is_string (be_name _ _ _ x) /\ is_string (be_prefix _ _ _ x) /\ is_string (be_uri _ _ _ x);
    rd_props : forall k v, member (k, v) (bl_props _ _ _ b) -> is_string k /\ understood v;
    rd_globals : forall kind l, member (kind, l) (bl_globals _ _ _ b) -> pairs_fine l;
    rd_events : forall v e, In v (bl_variants _ _ _ b) -> In e (b_events _ _ _ v) ->
      is_string (b_name _ _ _ e) /\ forall k w, member (k, w) (b_attributes _ _ _ e) -> is_string k /\ understood w }.
End Spec.
