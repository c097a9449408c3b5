(** Property C04: the text format of logs. *)
From Verif Require Import Py LogModel TextModel TextSpec TextProofs.

(** What serialize_log writes: names joined by the event separator, traces by the trace separator. *)
Theorem C04_text_written : forall log names ts es, log_names log names ->
  serialize_log log ts es = Ok (joined ts (map (joined es) names)).
Proof. exact serialize_log_eq. Qed.
Print Assumptions C04_text_written.

Theorem C04_logs_text_written : forall ls ts es logs namess, Forall2 log_names logs namess ->
  serialize_logs logs ls ts es = Ok (joined ls (map (fun names => joined ts (map (joined es) names)) namess)).
Proof. exact serialize_logs_proof. Qed.
Print Assumptions C04_logs_text_written.

(** One-character separators: cutting the text into lines and parsing them gives exactly the names. *)
Theorem C04_round_trip : forall log names ts es,
  ts <> es -> log_names log names -> names <> [] ->
  (forall t, In t names -> t <> []) ->
  (forall t n, In t names -> In n t -> ~ In ts n /\ ~ In es n) ->
  exists text lines, serialize_log log [ts] [es] = Ok text /\ py_split text [ts] = Ok lines /\
    parse_log_from_strings lines [es] = Ok (log_of_names names).
Proof. exact round_trip_single_proof. Qed.
Print Assumptions C04_round_trip.

(** Arbitrary separators: no occurrence of the separator may begin inside a piece, also not one that runs into
    the separator that follows. *)
Theorem C04_round_trip_general : forall log names ts es,
  ts <> [] -> es <> [] -> log_names log names ->
  splittable ts (map (joined es) names) -> (forall t, In t names -> splittable es t) ->
  exists text lines, serialize_log log ts es = Ok text /\ py_split text ts = Ok lines /\
    parse_log_from_strings lines es = Ok (log_of_names names).
Proof. exact round_trip_proof. Qed.
Print Assumptions C04_round_trip_general.

(** The condition is necessary: splitting recovers the pieces exactly when they are splittable. *)
Theorem C04_condition_exact : forall sep l, sep <> [] ->
  (py_split (joined sep l) sep = Ok l <-> splittable sep l).
Proof.
  intros sep l Hs. rewrite <- (splittable_iff sep l Hs). unfold py_split. destruct sep; [congruence|]. split; [intros H; injection H as H; exact H|congruence].
Qed.
Print Assumptions C04_condition_exact.

(** The other direction: parsing any lines and writing them again gives the same text. *)
Theorem C04_parse_then_serialize : forall strs ts sep, sep <> [] ->
  exists log, parse_log_from_strings strs sep = Ok log /\ serialize_log log ts sep = Ok (joined ts strs).
Proof. exact parse_serialize_proof. Qed.
Print Assumptions C04_parse_then_serialize.

(** "No name contains a separator" is not enough for longer separators. *)
Theorem C04_long_separator_refuted : exists names sep,
  (forall t n, In t names -> In n t -> ~ contains sep n) /\
  py_split (joined sep (concat names)) sep = Ok [str "x"; str "ay"] /\ concat names = [str "xa"; str "y"].
Proof.
  exists [[str "xa"; str "y"]], (str "aa"). split; [|split; reflexivity].
  intros t n [<-|[]] [<-|[<-|[]]] [i [a [b [H _]]]];
    destruct a as [|? [|? [|? ?]]]; cbn in H; discriminate.
Qed.
Print Assumptions C04_long_separator_refuted.

(** An empty trace comes back as a trace with one event named "" (whatever the separators), and an
    empty log as a log with one such trace. *)
Theorem C04_empty_trace_refuted : forall ts es, ts <> [] -> es <> [] ->
  serialize_log (log_of_names [[]]) ts es = Ok [] /\ serialize_log (log_of_names []) ts es = Ok [] /\
  bind (py_split [] ts) (fun lines => parse_log_from_strings lines es) = Ok (log_of_names [[[]]]).
Proof. intros [|a ts] [|b es] H1 H2; try congruence. repeat split. Qed.
Print Assumptions C04_empty_trace_refuted.

Example C04_case :
  let names := [[str "A"; str "B C"]; [str "D"]] in
  log_names (log_of_names names) names /\
  serialize_log (log_of_names names) [10%N] (str ",") = Ok (str "A,B C" ++ [10%N] ++ str "D") /\
  bind (py_split (str "A,B C" ++ [10%N] ++ str "D") [10%N]) (fun lines => parse_log_from_strings lines (str ","))
    = Ok (log_of_names names).
Proof. cbn zeta. split; [apply log_names_of_names|]. split; reflexivity. Qed.
