(** Vocabulary for the XES round trip. *)
From Verif Require Import Py LogModel EqSpec.

(** Types that have an XES tag. *)
Definition xes_type (v : value) : Prop := match v with VEvents _ | VActs _ | VOpaque _ => False | _ => True end.

(** What a written value is read back as: a boolean always as True, everything else as it was. *)
Definition reread (v : value) : value := match v with VBool _ => VBool true | _ => v end.

(** The value a key of an event (or trace) has after writing and reading.  [text] is str(). A value is
    lost when its type has no tag or when it equals the declared default; then (and also when the
    key was missing) the default appears, as text. *)
Definition expected (text : value -> pystr) (veq : value -> value -> bool)
  (defaults : option (dict pystr value)) (d : dict pystr value) (k : pystr) : option value :=
  let default := match defaults with Some g => dget str_eq_dec g k | None => None end in
  let fallback := option_map (fun g => VStr (text g)) default in
  match dget str_eq_dec d k with
  | None => fallback
  | Some v =>
      match v with
      | VEvents _ | VActs _ | VOpaque _ => fallback
      | _ => match default with
             | Some g => if veq g v then fallback else Some (reread v)
             | None => Some (reread v)
             end
      end
  end.

(** Floats and dates whose textual form is read back as itself. *)
Definition stable (parse_float parse_date : pystr -> result pystr) (v : value) : Prop :=
  match v with VFloat r => parse_float r = Ok r | VDate d => parse_date d = Ok d | _ => True end.

(** Conditions on a log under which the whole document can be read back. *)
Record writable (parse_float parse_date : pystr -> result pystr) (log : eventlog) : Prop := {
  w_attrs : is_dict (l_attrs log);
  w_ext : is_dict (l_extensions log);
  w_ext_content : forall n c, In (n, c) (l_extensions log) ->
    is_dict c /\ forall k, In k (dkeys c) <-> k = str "prefix" \/ k = str "uri";
  w_cls : is_dict (l_classifiers log);
  w_cls_content : forall n ks, In (n, ks) (l_classifiers log) -> ks <> [] /\ forall k, In k ks -> ~ In 32%N k;
  w_globals : is_dict (l_globals log);
  w_globals_content : forall n g, In (n, g) (l_globals log) -> is_dict g /\ forall k v, In (k, v) g -> xes_type v;
  w_traces : forall t, In t (l_traces log) ->
    is_dict (t_attrs t) /\ (forall k v, In (k, v) (t_attrs t) -> stable parse_float parse_date v) /\
    forall e, In e (t_events t) -> is_dict e /\ forall k v, In (k, v) e -> stable parse_float parse_date v
}.

(** All global values as text. *)
Definition text_globals (text : value -> pystr) (g : dict pystr (dict pystr value)) : dict pystr (dict pystr value) :=
  map (fun sc => (fst sc, map (fun kv => (fst kv, VStr (text (snd kv)))) (snd sc))) g.

(** Values that come back unchanged. *)
Definition plain (v : value) : Prop := match v with VBool b => b = true | VEvents _ | VActs _ | VOpaque _ => False | _ => True end.
