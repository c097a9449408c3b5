(** C76 and C77: XES files in the backend. *)
From Coq Require Import Sorting.Permutation Sorting.Sorted Lia.
From Verif Require Import Py HashModel XesModel WireModel RXesModel RXesSpec RXesProofs RXesProofs2 RXesProofs3.

(** * C76: a log that is written and read *)

(** Traces with events come back in order, each event with its name, its time and for each key what its value
    becomes, or the default; an event without a time that can be read is missing.  Defaults come back under
    the escaped scope unless there are none; extensions and classifiers with escaped texts; properties sorted
    by name. *)
Theorem C76_round_trip :
  forall (date f32 f64 : Type) (show_date : date -> pystr) (show_f32 : f32 -> pystr) (show_f64 : f64 -> pystr)
    (parse_date : pystr -> option date) (parse_f64 : pystr -> option f64) (parse_uuid : pystr -> option uuid) log,
  sound date f32 f64 log -> exists log',
  read_log f32 parse_date parse_f64 parse_uuid (write_log show_date show_f32 show_f64 log) = Fine log' /\
  Forall2 (events_back date f32 f64 show_date show_f32 show_f64 parse_date parse_f64 parse_uuid log)
    (filter (fun es => negb (length es =? 0)) (x_traces log)) (x_traces log') /\
  (forall s t, escaped s t ->
     match dget str_eq_dec (x_globals log) s with
     | Some (kv :: d) => exists d', dget str_eq_dec (x_globals log') t = Some d' /\
         forall k, at_key date f32 f64 show_date show_f32 show_f64 parse_date parse_f64 parse_uuid (kv :: d) k (dget str_eq_dec d' k)
     | _ => dget str_eq_dec (x_globals log') t = None
     end) /\
  (forall t, In t (dkeys (x_globals log')) -> exists s, escaped s t /\ In s (dkeys (x_globals log))) /\
  Forall2 (fun x x' => escaped (xe_name x) (xe_name x') /\ escaped (xe_prefix x) (xe_prefix x') /\ escaped (xe_uri x) (xe_uri x')) (x_exts log) (x_exts log') /\
  Forall2 (fun c c' => escaped (xc_name c) (xc_name c') /\ Forall2 escaped (xc_keys c) (xc_keys c')) (x_classifiers log) (x_classifiers log') /\
  exists sorted, stably_sorted (x_props log) sorted /\
    props_back date f32 f64 show_date show_f32 show_f64 parse_date parse_f64 parse_uuid sorted (x_props log').
Proof. exact round_trip. Qed.
Print Assumptions C76_round_trip.

(** Each value becomes one thing. *)
Theorem C76_values :
  forall (date f32 f64 : Type) (show_date : date -> pystr) (show_f32 : f32 -> pystr) (show_f64 : f64 -> pystr)
    (parse_date : pystr -> option date) (parse_f64 : pystr -> option f64) (parse_uuid : pystr -> option uuid) v,
  exists o, becomes date f32 f64 show_date show_f32 show_f64 parse_date parse_f64 parse_uuid v o /\
  forall o', becomes date f32 f64 show_date show_f32 show_f64 parse_date parse_f64 parse_uuid v o' -> o' = o.
Proof. exact values_once. Qed.
Print Assumptions C76_values.

(** Plain logs come back as they were. *)
Theorem C76_exact :
  forall (date f32 f64 : Type) (show_date : date -> pystr) (show_f32 : f32 -> pystr) (show_f64 : f64 -> pystr)
    (parse_date : pystr -> option date) (parse_f64 : pystr -> option f64) (parse_uuid : pystr -> option uuid) log,
  sound date f32 f64 log -> plain date f32 f64 show_date show_f32 show_f64 parse_date parse_f64 parse_uuid log ->
  exists log', read_log f32 parse_date parse_f64 parse_uuid (write_log show_date show_f32 show_f64 log) = Fine log' /\
  Forall2 (Forall2 (fun e e' => x_name e' = x_name e /\ x_time e' = x_time e /\ same_map (x_payload e) (x_payload e'))) (x_traces log) (x_traces log') /\
  (forall s, match dget str_eq_dec (x_globals log) s with
             | Some d => exists d', dget str_eq_dec (x_globals log') s = Some d' /\ same_map d d'
             | None => dget str_eq_dec (x_globals log') s = None
             end) /\
  x_exts log' = x_exts log /\ x_classifiers log' = x_classifiers log /\ x_props log' = x_props log.
Proof. exact exact. Qed.
Print Assumptions C76_exact.

(** Texts of extensions, classifiers and scopes are as they were only without markup; else they grow by at least
    three characters, and will grow again the next time. *)
Theorem C76_markup :
  forall s t, escaped s t ->
  (s = t <-> markup_free s) /\ (~ markup_free s -> length s + 3 <= length t /\ ~ markup_free t).
Proof. exact markup. Qed.
Print Assumptions C76_markup.

(** What is written is read, whatever the log. *)
Theorem C76_written_is_read :
  forall (date f32 f64 : Type) (show_date : date -> pystr) (show_f32 : f32 -> pystr) (show_f64 : f64 -> pystr)
    (parse_date : pystr -> option date) (parse_f64 : pystr -> option f64) (parse_uuid : pystr -> option uuid) log,
  exists log', read_log f32 parse_date parse_f64 parse_uuid (write_log show_date show_f32 show_f64 log) = Fine log'.
Proof. exact written_read. Qed.
Print Assumptions C76_written_is_read.

(** An event at a time that is written in a way that is not read is lost, and its trace is left without it. *)
Theorem C76_no_time_no_event :
  forall (date f32 f64 : Type) (show_date : date -> pystr) (show_f32 : f32 -> pystr) (show_f64 : f64 -> pystr)
    (parse_date : pystr -> option date) (parse_f64 : pystr -> option f64) (parse_uuid : pystr -> option uuid) n d (payload : dict pystr (pval date f32 f64)),
  parse_date (show_date d) = None -> NoDup (dkeys payload) ->
  ~ In (str "concept:name") (dkeys payload) -> ~ In (str "time:timestamp") (dkeys payload) ->
  exists log', read_log f32 parse_date parse_f64 parse_uuid
    (write_log show_date show_f32 show_f64 (mkXLog [[mkXEvent n d payload]] [] [] [] [])) = Fine log' /\ x_traces log' = [[]].
Proof. exact no_time_no_event. Qed.
Print Assumptions C76_no_time_no_event.

(** It is not so that a log comes back with its extensions. *)
Theorem C76_extensions_refuted :
  forall (date f32 f64 : Type) (show_date : date -> pystr) (show_f32 : f32 -> pystr) (show_f64 : f64 -> pystr)
    (parse_date : pystr -> option date) (parse_f64 : pystr -> option f64) (parse_uuid : pystr -> option uuid), exists log : xlog date f32 f64,
  sound date f32 f64 log /\
  forall log', read_log f32 parse_date parse_f64 parse_uuid (write_log show_date show_f32 show_f64 log) = Fine log' -> x_exts log' <> x_exts log.
Proof. exact extensions_refuted. Qed.
Print Assumptions C76_extensions_refuted.

(** * C77: files of all kinds *)

(** A well nested file with known entities is read. *)
Theorem C77_total :
  forall (date f32 f64 : Type)
    (parse_date : pystr -> option date) (parse_f64 : pystr -> option f64) (parse_uuid : pystr -> option uuid) l,
  nested [] l -> good_entities l -> exists log, read_log f32 parse_date parse_f64 parse_uuid l = Fine log.
Proof. exact total. Qed.
Print Assumptions C77_total.

(** Only an unknown entity makes reading panic. *)
Theorem C77_panics :
  forall (date f32 f64 : Type)
    (parse_date : pystr -> option date) (parse_f64 : pystr -> option f64) (parse_uuid : pystr -> option uuid) l,
  good_entities l -> read_log f32 parse_date parse_f64 parse_uuid l <> Panics.
Proof. exact no_panic. Qed.
Print Assumptions C77_panics.

(** Reading a well nested file ends. *)
Theorem C77_ends :
  forall (date f32 f64 : Type)
    (parse_date : pystr -> option date) (parse_f64 : pystr -> option f64) (parse_uuid : pystr -> option uuid) l,
  nested [] l -> read_log f32 parse_date parse_f64 parse_uuid l <> Hangs.
Proof. exact no_hang. Qed.
Print Assumptions C77_ends.

(** What is written is well nested and has known entities only. *)
Theorem C77_written :
  forall (date f32 f64 : Type) (show_date : date -> pystr) (show_f32 : f32 -> pystr) (show_f64 : f64 -> pystr) log,
  nested [] (write_log show_date show_f32 show_f64 log) /\ good_entities (write_log show_date show_f32 show_f64 log).
Proof. exact written_both. Qed.
Print Assumptions C77_written.

(** Text between the tags does not matter. *)
Theorem C77_text :
  forall (date f32 f64 : Type)
    (parse_date : pystr -> option date) (parse_f64 : pystr -> option f64) (parse_uuid : pystr -> option uuid) l,
  read_log f32 parse_date parse_f64 parse_uuid (tags_only l) = read_log f32 parse_date parse_f64 parse_uuid l.
Proof. exact text_ignored. Qed.
Print Assumptions C77_text.

(** Reading a written file that was cut inside a trace never ends. *)
Theorem C77_cut_in_trace :
  forall (date f32 f64 : Type) (show_date : date -> pystr) (show_f32 : f32 -> pystr) (show_f64 : f64 -> pystr)
    (parse_date : pystr -> option date) (parse_f64 : pystr -> option f64) (parse_uuid : pystr -> option uuid) log a b,
  sound date f32 f64 log -> write_log show_date show_f32 show_f64 log = a ++ b -> in_trace a = true ->
  read_log f32 parse_date parse_f64 parse_uuid a = Hangs.
Proof. exact cut_hangs. Qed.
Print Assumptions C77_cut_in_trace.

(** A file cut between traces, or with an error in the XML there, reads as if it were the file of a log with the traces before. *)
Theorem C77_cut_between_traces :
  forall (date f32 f64 : Type) (show_date : date -> pystr) (show_f32 : f32 -> pystr) (show_f64 : f64 -> pystr)
    (parse_date : pystr -> option date) (parse_f64 : pystr -> option f64) (parse_uuid : pystr -> option uuid) log ts1 ts2,
  sound date f32 f64 log -> exists a b,
  write_log show_date show_f32 show_f64 (with_traces log (ts1 ++ ts2)) = a ++ b /\
  read_log f32 parse_date parse_f64 parse_uuid a = read_log f32 parse_date parse_f64 parse_uuid (write_log show_date show_f32 show_f64 (with_traces log ts1)) /\
  forall rest, read_log f32 parse_date parse_f64 parse_uuid (a ++ TErr :: rest) = read_log f32 parse_date parse_f64 parse_uuid (write_log show_date show_f32 show_f64 (with_traces log ts1)).
Proof. exact cut_between. Qed.
Print Assumptions C77_cut_between_traces.

(** It is not so that each file is read or refused. *)
Theorem C77_always_ends_refuted :
  forall (date f32 f64 : Type)
    (parse_date : pystr -> option date) (parse_f64 : pystr -> option f64) (parse_uuid : pystr -> option uuid), exists l,
  good_entities l /\ read_log f32 parse_date parse_f64 parse_uuid l = Hangs.
Proof. exact always_ends_refuted. Qed.
Print Assumptions C77_always_ends_refuted.

(** It is not so that a well nested file does not make reading panic. *)
Theorem C77_never_panics_refuted :
  forall (date f32 f64 : Type)
    (parse_date : pystr -> option date) (parse_f64 : pystr -> option f64) (parse_uuid : pystr -> option uuid), exists l,
  nested [] l /\ read_log f32 parse_date parse_f64 parse_uuid l = Panics.
Proof. exact never_panics_refuted. Qed.
Print Assumptions C77_never_panics_refuted.

(** * A log *)

(** Dates are numbers; those from 10000 on are written with a sign that is not read. *)
Definition ex_show (d : N) : pystr := if (d <? 10000)%N then show_int (Z.of_N d) else 43%N :: show_int (Z.of_N d).
Definition ex_parse (s : pystr) : option N :=
  match s with
  | 43%N :: _ => None
  | _ => match parse_int s with Ok z => Some (Z.to_N z) | Err _ => None end
  end.
Definition ex_log : xlog N pystr pystr :=
  mkXLog
    [[mkXEvent (str "A & B") 5%N [(str "cost", PInt32 3%Z); (str "big", PUint64 (2 ^ 63)%Z)]; mkXEvent (str "C") 20000%N []]; []; [mkXEvent (str "D") 7%N [(str "who", PString (str "<me>"))]]]
    [(str "event", [(str "who", PString (str "nobody")); (str "big", PBool true)]); (str "trace", [])]
    [mkXExt (str "a&b") (str "p") (str "u")] [mkXCls (str "c") [str "x"; str "y"]]
    [(str "z", PBool true); (str "a", PGuid 1%N); (str "b", PLifecycle (str "complete"))].
Example C76_ex_read :
  read_log pystr ex_parse Some (fun _ => None) (write_log ex_show (fun s => s) (fun s => s) ex_log) =
  Fine (mkXLog
    [[mkXEvent (str "A & B") 5%N [(str "big", PBool true); (str "who", PString (str "nobody")); (str "cost", PInt64 3%Z)]];
     [mkXEvent (str "D") 7%N [(str "big", PBool true); (str "who", PString (str "<me>"))]]]
    [(str "event", [(str "big", PBool true); (str "who", PString (str "nobody"))])]
    [mkXExt (str "a&amp;b") (str "p") (str "u")] [mkXCls (str "c") [str "x"; str "y"]]
    [(str "b", PString (str "complete")); (str "z", PBool true)]).
Proof. vm_compute. reflexivity. Qed.
Example C76_ex_sound : sound N pystr pystr ex_log.
Proof.
  constructor; cbn [ex_log x_globals x_traces x_classifiers].
  - repeat constructor; cbn; intuition discriminate.
  - intros s d [H|[H|[]]]; injection H as <- <-; repeat constructor; cbn; intuition discriminate.
  - intros es e [<-|[<-|[<-|[]]]] H; cbn in H; repeat (destruct H as [<-|H] || destruct H); cbn; repeat constructor; cbn; intuition discriminate.
  - intros c [<-|[]]. split; [discriminate|]. cbn. intros k [<-|[<-|[]]]; cbn; intuition discriminate.
Qed.

(** A plain log. *)
Definition ex_plain : xlog N pystr pystr :=
  mkXLog [[mkXEvent (str "A & B") 5%N [(str "who", PString (str "<me>")); (str "n", PInt64 (-3)%Z)]]] [(str "trace", [(str "k", PBool false)])]
    [mkXExt (str "ab") (str "p") (str "u")] [mkXCls (str "c") [str "x"; str "y"]] [(str "a", PInt64 1%Z); (str "b", PString (str "&"))].
Example C76_ex_plain : sound N pystr pystr ex_plain /\ plain N pystr pystr ex_show (fun s => s) (fun s => s) ex_parse Some (fun _ => None) ex_plain.
Proof.
  assert (MF : forall s, (forallb (fun c => negb (existsb (N.eqb c) [34; 38; 39; 60; 62]%N)) s = true) -> markup_free s).
  { intros s H c Hc A. rewrite forallb_forall in H. apply H in Hc. apply Bool.negb_true_iff in Hc. rewrite <- Bool.not_true_iff_false in Hc. apply Hc.
    apply existsb_exists. exists c. split; [exact A|apply N.eqb_refl]. }
  split; constructor; cbn [ex_plain x_globals x_traces x_classifiers x_exts x_props].
  - repeat constructor; cbn; intuition discriminate.
  - intros s d [H|[]]; injection H as <- <-; repeat constructor; cbn; intuition discriminate.
  - intros es e [<-|[]] [<-|[]]. cbn; repeat constructor; cbn; intuition discriminate.
  - intros c [<-|[]]. split; [discriminate|]. cbn. intros k [<-|[<-|[]]]; cbn; intuition discriminate.
  - intros x [<-|[]]. repeat split; apply MF; reflexivity.
  - intros x [<-|[]]. split; [apply MF; reflexivity|]. cbn. intros k [<-|[<-|[]]]; apply MF; reflexivity.
  - intros s d [H|[]]; injection H as <- <-. split; [apply MF; reflexivity|]. split; discriminate.
  - intros s d k v [H|[]]; injection H as <- <-. intros [H|[]]; injection H as <- <-. constructor.
  - intros es e [<-|[]] [<-|[]]. split; [reflexivity|]. cbn. intros k v [H|[H|[]]]; injection H as <- <-; [constructor|].
    eapply becomes_int; [right; left; reflexivity|lia].
  - intros [H|[]]; discriminate.
  - repeat constructor.
  - intros k v [H|[H|[]]]; injection H as <- <-; [|constructor]. eapply becomes_int; [right; left; reflexivity|lia].
Qed.

(** The file of a log, cut after the first event and between the traces. *)
Example C77_ex_cut :
  exists a b, write_log ex_show (fun s => s) (fun s => s) ex_log = a ++ b /\ in_trace a = true /\ length a = 20.
Proof. exists (firstn 20 (write_log ex_show (fun s => s) (fun s => s) ex_log)), (skipn 20 (write_log ex_show (fun s => s) (fun s => s) ex_log)). split; [symmetry; apply firstn_skipn|]. split; vm_compute; reflexivity. Qed.
Example C77_ex_between :
  read_log pystr ex_parse Some (fun _ => None) (firstn 24 (write_log ex_show (fun s => s) (fun s => s) ex_log)) =
  read_log pystr ex_parse Some (fun _ => None) (write_log ex_show (fun s => s) (fun s => s) (with_traces ex_log (firstn 1 (x_traces ex_log)))) /\
  in_trace (firstn 24 (write_log ex_show (fun s => s) (fun s => s) ex_log)) = false.
Proof. split; vm_compute; reflexivity. Qed.
(** A file with text, unknown tags, an empty trace tag and an event in an event is read. *)
Example C77_ex_odd :
  let l := [TOther; TStart (str "log") []; TStart (str "trace") []; TStart (str "event") []; TStart (str "list") [];
            TEmpty (str "string") [Some (str "key", str "concept:name"); Some (str "value", str "A &#38; B"); None];
            TEmpty (str "date") [Some (str "value", str "5"); Some (str "key", str "time:timestamp")];
            TEnd (str "list"); TEnd (str "event"); TEnd (str "trace"); TEmpty (str "trace") []; TEnd (str "log")] in
  nested [] l /\ good_entities l /\ read_log pystr ex_parse (@Some pystr) (fun _ => None) l = Fine (mkXLog [[mkXEvent (str "A & B") 5%N []]] [] [] [] []).
Proof.
  split; [cbn; repeat split|]. split; [|vm_compute; reflexivity].
  assert (C : forall s, match unescape s with Some _ => true | None => false end = true -> unescape s <> None) by (intros s H E; rewrite E in H; discriminate).
  intros n attrs H k v Hv _. apply C.
  destruct H as [H|H]; repeat (destruct H as [H|H]; [try discriminate H; injection H as <- <-; repeat (destruct Hv as [Hv|Hv]; [try discriminate Hv; injection Hv as <- <-; vm_compute; reflexivity|]); destruct Hv|]); destruct H.
Qed.
