(** C05, C06: writing a log as XES and reading it back. *)
From Verif Require Import Py LogModel EqSpec TextModel XesModel XesSpec XesProofs XesLogProofs.

Theorem C05_round_trip :
  forall (parse_float parse_date : pystr -> result pystr) (veq : value -> value -> bool) (log : eventlog),
    writable parse_float parse_date log -> l_properties log = [] ->
    exists doc log', serialize_log_to_tree veq log = Ok doc /\ read_log_from_tree parse_float parse_date doc = Ok log' /\
      l_attrs log' = l_attrs log /\
      Forall2 (fun x x' => fst x' = fst x /\ same_dict (snd x) (snd x')) (l_extensions log) (l_extensions log') /\
      l_classifiers log' = l_classifiers log /\ l_properties log' = [] /\
      l_globals log' = text_globals show_value (l_globals log) /\
      Forall2 (fun t t' =>
        is_dict (t_attrs t') /\
        (forall k, dget str_eq_dec (t_attrs t') k = expected show_value veq (dget str_eq_dec (l_globals log) (str "trace")) (t_attrs t) k) /\
        Forall2 (fun e e' => is_dict e' /\
          forall k, dget str_eq_dec e' k = expected show_value veq (dget str_eq_dec (l_globals log) (str "event")) e k)
          (t_events t) (t_events t')) (l_traces log) (l_traces log').
Proof. exact round_trip_proof. Qed.
Print Assumptions C05_round_trip.

Theorem C05_exact_round_trip :
  forall (parse_float parse_date : pystr -> result pystr) (veq : value -> value -> bool) (log : eventlog),
    writable parse_float parse_date log -> l_properties log = [] -> l_globals log = [] ->
    (forall t, In t (l_traces log) -> (forall k v, In (k, v) (t_attrs t) -> plain v) /\
       forall e, In e (t_events t) -> forall k v, In (k, v) e -> plain v) ->
    exists doc log', serialize_log_to_tree veq log = Ok doc /\ read_log_from_tree parse_float parse_date doc = Ok log' /\
      l_traces log' = l_traces log.
Proof. exact exact_round_trip_proof. Qed.
Print Assumptions C05_exact_round_trip.

Theorem C05_int_text_round_trip : forall z : Z, parse_int (show_int z) = Ok z.
Proof. exact parse_show_int. Qed.
Print Assumptions C05_int_text_round_trip.

(** A log with every part filled; parse_float/parse_date as the identity, values equal by cases. *)
Definition sample_event : event := [(str "concept:name", VStr (str "A b")); (str "cost", VInt (-12)); (str "ok", VBool false); (str "x", VOpaque 0)].
Definition sample : eventlog :=
  mkLog [mkTrace [sample_event; []] [(str "case", VFloat (str "1.5"))]; mkTrace [] []] [(str "version", str "1")]
    [(str "Concept", [(str "uri", str "u"); (str "prefix", str "p")])] [(str "c", [str "concept:name"; str "cost"])] []
    [(str "event", [(str "cost", VInt 5); (str "who", VInt 7)])].
Definition same_int (a b : value) : bool := match a, b with VInt x, VInt y => Z.eqb x y | _, _ => false end.

Example C05_sample_writable : writable (@Ok pystr) (@Ok pystr) sample.
Proof.
  split; cbn; try (repeat constructor; cbn; intuition discriminate).
  - intros n c [H|[]]. injection H as <- <-. split; [repeat constructor; cbn; intuition discriminate|]. intros k. cbn. intuition (subst; auto).
  - intros n ks [H|[]]. injection H as <- <-. split; [discriminate|]. intros k Hk. cbn in Hk. intuition (subst; cbn in *; intuition discriminate).
  - intros n g [H|[]]. injection H as <- <-. split; [repeat constructor; cbn; intuition discriminate|].
    intros k v Hk. cbn in Hk. destruct Hk as [Hk|[Hk|[]]]; injection Hk as <- <-; exact I.
  - intros t [<-|[<-|[]]]; cbn.
    + split; [repeat constructor; cbn; intuition discriminate|]. split.
      * intros k v [H|[]]. injection H as <- <-. reflexivity.
      * intros e [<-|[<-|[]]]; (split; [repeat constructor; cbn; intuition discriminate|]); intros k v H; cbn in H; [|destruct H].
        repeat (destruct H as [H|H]; [injection H as <- <-; exact I|]); destruct H.
    + split; [constructor|]. split; [intros k v []|intros e []].
Qed.

Example C05_sample_read :
  match serialize_log_to_tree same_int sample with
  | Ok doc => match read_log_from_tree (@Ok pystr) (@Ok pystr) doc with
              | Ok log' => l_traces log' =
                  [mkTrace [[(str "cost", VInt (-12)); (str "who", VStr (str "7")); (str "concept:name", VStr (str "A b")); (str "ok", VBool true)];
                            [(str "cost", VStr (str "5")); (str "who", VStr (str "7"))]] [(str "case", VFloat (str "1.5"))]; mkTrace [] []]
              | Err _ => False end
  | Err _ => False end.
Proof. vm_compute. reflexivity. Qed.

(** A log without globals whose traces come back exactly. *)
Example C05_exact_case :
  let log := mkLog [mkTrace [[(str "concept:name", VStr (str "A")); (str "n", VInt 3)]] []] [] [] [] [] [] in
  exists doc log', serialize_log_to_tree same_int log = Ok doc /\ read_log_from_tree (@Ok pystr) (@Ok pystr) doc = Ok log' /\ l_traces log' = l_traces log.
Proof.
  apply C05_exact_round_trip; try reflexivity.
  - split; cbn; try (constructor; fail); try (intros ? ? []).
    intros t [<-|[]]. cbn. split; [constructor|]. split; [intros k v []|]. intros e [<-|[]].
    split; [repeat constructor; cbn; intuition discriminate|]. intros k v H. cbn in H.
    repeat (destruct H as [H|H]; [injection H as <- <-; exact I|]). destruct H.
  - intros t [<-|[]]. cbn. split; [intros k v []|]. intros e [<-|[]] k v H. cbn in H.
    repeat (destruct H as [H|H]; [injection H as <- <-; exact I|]). destruct H.
Qed.

Theorem C06_properties_never_come_back :
  forall (parse_float parse_date : pystr -> result pystr) (veq : value -> value -> bool) (log : eventlog),
    writable parse_float parse_date log -> l_properties log <> [] ->
    match serialize_log_to_tree veq log with
    | Ok doc => read_log_from_tree parse_float parse_date doc = Err KeyError
    | Err e => e = TypeError /\ exists k v, In (k, v) (l_properties log) /\ forall s, v <> VStr s
    end.
Proof. exact property_fails. Qed.
Print Assumptions C06_properties_never_come_back.

Example C06_property_case :
  let log := mkLog [] [] [] [] [(str "creator", VStr (str "me"))] [] in
  match serialize_log_to_tree same_int log with Ok doc => read_log_from_tree (@Ok pystr) (@Ok pystr) doc = Err KeyError | Err _ => False end
  /\ serialize_log_to_tree same_int (mkLog [] [] [] [] [(str "n", VInt 1)] []) = Err TypeError.
Proof. vm_compute. split; reflexivity. Qed.

Theorem C06_lost_values :
  forall (parse_float parse_date : pystr -> result pystr) (veq : value -> value -> bool) (log : eventlog) n m t e k v,
    writable parse_float parse_date log -> l_properties log = [] ->
    nth_error (l_traces log) n = Some t -> nth_error (t_events t) m = Some e -> dget str_eq_dec e k = Some v ->
    exists doc log' t' e', serialize_log_to_tree veq log = Ok doc /\ read_log_from_tree parse_float parse_date doc = Ok log' /\
      nth_error (l_traces log') n = Some t' /\ nth_error (t_events t') m = Some e' /\
      ((forall g, dget str_eq_dec (l_globals log) (str "event") = Some g -> dget str_eq_dec g k = None) ->
         (forall b, v = VBool b -> dget str_eq_dec e' k = Some (VBool true)) /\ (~ xes_type v -> dget str_eq_dec e' k = None)) /\
      (forall g dv, dget str_eq_dec (l_globals log) (str "event") = Some g -> dget str_eq_dec g k = Some dv -> veq dv v = true ->
         dget str_eq_dec e' k = Some (VStr (show_value dv))).
Proof. exact lost_values_proof. Qed.
Print Assumptions C06_lost_values.

Theorem C06_untyped_global_cannot_be_written :
  forall (veq : value -> value -> bool) (log : eventlog) n g k v,
    In (n, g) (l_globals log) -> In (k, v) g -> ~ xes_type v -> serialize_log_to_tree veq log = Err KeyError.
Proof. exact global_untyped. Qed.
Print Assumptions C06_untyped_global_cannot_be_written.

Example C06_untyped_global_case :
  serialize_log_to_tree same_int (mkLog [] [] [] [] [] [(str "event", [(str "a", VInt 1); (str "b", VOpaque 3)])]) = Err KeyError.
Proof. vm_compute. reflexivity. Qed.

Theorem C06_incomplete_extension :
  forall (parse_float parse_date : pystr -> result pystr) (veq : value -> value -> bool) (log : eventlog) n c doc,
    (forall n c, In (n, c) (l_extensions log) -> is_dict c) ->
    In (n, c) (l_extensions log) -> ~ (In (str "prefix") (dkeys c) /\ In (str "uri") (dkeys c)) ->
    serialize_log_to_tree veq log = Ok doc -> read_log_from_tree parse_float parse_date doc = Err KeyError.
Proof. exact ext_missing. Qed.
Print Assumptions C06_incomplete_extension.

Example C06_incomplete_extension_case :
  match serialize_log_to_tree same_int (mkLog [] [] [(str "E", [(str "uri", str "u")])] [] [] []) with
  | Ok doc => read_log_from_tree (@Ok pystr) (@Ok pystr) doc = Err KeyError | Err _ => False end.
Proof. vm_compute. reflexivity. Qed.

(** A boolean False, a classifier without keys and a classifier key containing a blank do not come back. *)
Theorem C06_faithful_refuted :
  exists log log' doc, serialize_log_to_tree same_int log = Ok doc /\ read_log_from_tree (@Ok pystr) (@Ok pystr) doc = Ok log' /\
    l_traces log = [mkTrace [[(str "ok", VBool false)]] []] /\ l_traces log' = [mkTrace [[(str "ok", VBool true)]] []] /\
    l_classifiers log = [(str "none", []); (str "blank", [str "a b"])] /\
    l_classifiers log' = [(str "none", [[]]); (str "blank", [str "a"; str "b"])].
Proof.
  exists (mkLog [mkTrace [[(str "ok", VBool false)]] []] [] [] [(str "none", []); (str "blank", [str "a b"])] [] []).
  eexists. eexists. split; [vm_compute; reflexivity|]. split; [vm_compute; reflexivity|]. vm_compute. repeat split; reflexivity.
Qed.
Print Assumptions C06_faithful_refuted.
