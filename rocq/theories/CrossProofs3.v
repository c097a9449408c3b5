(** Further facts about logs passed between the two programs. *)
From Coq Require Import Lia Bool Sorting.Permutation Sorting.Sorted.
From Verif Require Import Py PyFacts LogModel EqSpec HashModel EqProofs TextModel XesModel XesSpec XesProofs XesLogProofs TightSpec WireModel
  RXesModel RXesSpec RXesProofs CrossModel CrossSpec CrossProofs1 CrossProofs2.

Section Facts.
  Variables date f32 f64 : Type.
  Variables (parse_date : pystr -> option date) (parse_f64 : pystr -> option f64) (parse_uuid : pystr -> option uuid).
  Variable veq : value -> value -> bool.
  Notation to_backend := (client_to_backend f32 parse_date parse_f64 parse_uuid veq).

  Lemma C79_when_proof log : (exists o, to_backend log = Ok o) <->
    (forall n g k v, In (n, g) (l_globals log) -> In (k, v) g -> xes_type v) /\
    (forall k v, In (k, v) (l_properties log) -> exists s, v = VStr s).
  Proof.
    unfold client_to_backend. split.
    - intros [o E]. destruct (serialize_log_to_tree veq log) as [x|] eqn:S; [|discriminate]. destruct (ok_tagged veq log x S) as [X _].
      split; [intros n g k v A B; exact (X n g A k v B)|]. rewrite (serialize_ok (fun _ => Err ValueError) (fun _ => Err ValueError)) in S by exact X.
      destruct (forallb _ _) eqn:F; [|discriminate]. rewrite forallb_forall in F. intros k v A. specialize (F _ A). cbn in F.
      destruct v; try discriminate. eexists. reflexivity.
    - intros [X P]. rewrite (serialize_ok (fun _ => Err ValueError) (fun _ => Err ValueError)) by (intros n g A k v B; exact (X n g k v A B)).
      assert (F : forallb (fun kv : pystr * value => match snd kv with VStr _ => true | _ => false end) (l_properties log) = true).
      { apply forallb_forall. intros [k v] A. destruct (P k v A) as [s ->]. reflexivity. }
      rewrite F. cbn [bind]. eexists. reflexivity.
  Qed.
  Lemma C79_errors_proof log e : to_backend log = Err e -> e = KeyError \/ e = TypeError.
  Proof.
    unfold client_to_backend. destruct (serialize_log_to_tree veq log) as [x|e'] eqn:S; [discriminate|]. cbn [bind]. intros H. injection H as <-.
    unfold serialize_log_to_tree in S. match type of S with bind ?m _ = _ => destruct m as [gs|e] eqn:M end.
    - cbn [bind] in S. rewrite (mapM_ok _ (trace_elem veq log)) in S by (intros t _; apply (trace_element_ok (fun _ => Err ValueError) (fun _ => Err ValueError))).
      cbn [bind] in S. destruct (forallb _ _); [discriminate|]. right. congruence.
    - cbn [bind] in S. injection S as ->. left. apply mapM_err in M. destruct M as ([n g] & _ & M). cbn [fst snd] in M.
      match type of M with bind ?m _ = _ => destruct m as [c|e] eqn:C end; [discriminate|]. cbn [bind] in M. injection M as ->.
      apply mapM_err in C. destruct C as ([k v] & _ & C). cbn [fst snd] in C. unfold create_value_tag in C. destruct (type_name v); [discriminate|congruence].
  Qed.

  Lemma C79_booleans_proof s d b : parse_date s = Some d -> exists log e log' e',
    held log /\ l_traces log = [mkTrace [e] []] /\ dget str_eq_dec e (str "done") = Some (VBool b) /\
    to_backend log = Ok (Fine log') /\ x_traces log' = [[e']] /\ x_payload e' = [].
  Proof.
    intros P. exists (mkLog [mkTrace [[(str "concept:name", VStr (str "a")); (str "time:timestamp", VDate s); (str "done", VBool b)]] []] [] [] [] [] []),
      [(str "concept:name", VStr (str "a")); (str "time:timestamp", VDate s); (str "done", VBool b)],
      (mkXLog [[mkXEvent (str "a") d []]] [] [] [] []), (mkXEvent (str "a") d []).
    split; [|split; [reflexivity|split; [reflexivity|split; [|split; reflexivity]]]].
    - constructor; cbn; try (intros; contradiction); try constructor. intros t e [<-|[]] [<-|[]]. unfold is_dict, dkeys. cbn [map fst].
      repeat constructor; cbn [In]; intuition discriminate.
    - unfold client_to_backend.
      match goal with |- bind (serialize_log_to_tree veq ?l) _ = _ => set (log := l) end.
      rewrite (serialize_ok (fun _ => Err ValueError) (fun _ => Err ValueError)) by (intros n g []).
      change (forallb _ (l_properties log)) with true. cbn iota. cbn [bind]. f_equal.
      rewrite (CrossProofs1.reading date f32 f64).
      + unfold log_read. f_equal. unfold log. cbn [l_traces l_globals l_extensions l_classifiers].
        unfold globals_read. cbn [globals_c flat_map fold_left map].
        assert (B : read_back date f32 f64 parse_date parse_f64 veq log [] [(str "concept:name", VStr (str "a")); (str "time:timestamp", VDate s); (str "done", VBool b)] = Some (mkXEvent (str "a") d [])).
        { unfold read_back.
          change (kept veq log (str "event") [(str "concept:name", VStr (str "a")); (str "time:timestamp", VDate s); (str "done", VBool b)])
            with [(str "concept:name", VStr (str "a")); (str "time:timestamp", VDate s); (str "done", VBool b)].
          unfold heard. cbn [flat_map snd fst app]. unfold understood. rewrite P. reflexivity. }
        fold log. unfold trace_b at 1. cbn [t_events t_attrs].
        match goal with |- context [filter ?f ?l] => change (filter f l) with l end.
        cbn [map t_events flat_map app]. rewrite B. reflexivity.
      + constructor; cbn; try (intros; contradiction); try constructor. intros t e [<-|[]] [<-|[]]. unfold is_dict, dkeys. cbn [map fst].
        repeat constructor; cbn [In]; intuition discriminate.
      + intros n g [].
  Qed.
  Lemma C79_default_event_proof e : (forall v, veq v v = true) -> is_dict e -> (forall k v, In (k, v) e -> xes_type v) -> e <> [] -> exists log log',
    held log /\ l_traces log = [mkTrace [e] []] /\ to_backend log = Ok (Fine log') /\ x_traces log' = [[]].
  Proof.
    intros V D X N. set (log := mkLog [mkTrace [e] []] [] [] [] [] [(str "event", e)]). exists log.
    assert (H : held log).
    { constructor; unfold log; cbn [l_attrs l_extensions l_classifiers l_globals l_traces]; try (intros n c []; fail).
      - constructor.
      - repeat constructor. intros [].
      - intros n g [A|[]]. injection A as <- <-. exact D.
      - intros t e' [<-|[]] [<-|[]]. exact D. }
    assert (XX : forall n g, In (n, g) (l_globals log) -> forall k v, In (k, v) g -> xes_type v) by (intros n g [A|[]] k v; injection A as <- <-; apply X).
    exists (log_read date f32 f64 parse_date parse_f64 veq log). split; [exact H|]. split; [reflexivity|]. split.
    - unfold client_to_backend. rewrite (serialize_ok (fun _ => Err ValueError) (fun _ => Err ValueError)) by exact XX.
      change (forallb _ (l_properties log)) with true. cbn iota. cbn [bind]. f_equal. apply CrossProofs1.reading; assumption.
    - assert (K : kept veq log (str "event") e = []).
      { apply (proj1 (blank_kept date f64 parse_date parse_f64 parse_uuid veq log e)). intros k v A [_ B]. unfold declared in B. change (l_globals log) with [(str "event", e)] in B.
        cbn [dget] in B. destruct (str_eq_dec (str "event") (str "event")) as [_|Q]; [|contradiction].
        rewrite (In_dget str_eq_dec e k v) in B by assumption. rewrite V in B. discriminate. }
      unfold log_read. cbn [x_traces]. change (l_traces log) with [mkTrace [e] []]. clearbody log. cbn [filter]. unfold trace_b. cbn [t_attrs t_events].
      change (kept veq log (str "trace") []) with (@nil (pystr * value)). cbn [map t_events flat_map app]. unfold read_back. rewrite K. reflexivity.
  Qed.
  Lemma C79_empty_trace_proof : exists log log', held log /\ length (l_traces log) = 1 /\ to_backend log = Ok (Fine log') /\ x_traces log' = [].
  Proof.
    exists (mkLog [mkTrace [] []] [] [] [] [] []), (mkXLog [] [] [] [] []). split; [|split; [reflexivity|split; reflexivity]].
    constructor; cbn; try (intros; contradiction); try constructor. intros t e [<-|[]] [].
  Qed.

End Facts.

Section Facts80.
  Variables date f32 f64 : Type.
  Variables (show_date : date -> pystr) (show_f32 : f32 -> pystr) (show_f64 : f64 -> pystr).
  Variables (parse_float parse_datetime : pystr -> result pystr).
  Notation to_client := (backend_to_client show_date show_f32 show_f64 parse_float parse_datetime).
  Notation taken := (CrossSpec.taken date f32 f64 show_date show_f32 show_f64 parse_float parse_datetime).
  Lemma C80_values_proof v : exists r, taken v r /\ forall r', taken v r' -> r' = r.
  Proof. exists (took date f32 f64 show_date show_f32 show_f64 parse_float parse_datetime v). split; [apply took_taken|]. intros r'. apply taken_took. Qed.
  Lemma C80_flat_proof s : exists t, flat s t /\ (forall t', flat s t' -> t' = t) /\ one_line t /\ (s = t <-> one_line s).
  Proof.
    exists (normal_space s). split; [apply nf_flat|]. split; [intros t'; apply flat_nf|].
    assert (O : one_line (normal_space s)).
    { assert (G : forall a b, flat a b -> one_line b); [|apply (G s), nf_flat].
      induction 1 as [|c a b H _ IH|c a b H _ IH|a b _ IH|a b H _ IH]; intros d Hd; try (destruct Hd; fail); (destruct Hd as [<-|Hd]; [|apply IH; exact Hd]); [exact H|cbn; lia..]. }
    split; [exact O|]. split; [intros E; rewrite E; exact O|]. intros L. symmetry. apply nf_one_line. exact L.
  Qed.
  Lemma fair_props l : NoDup (dkeys l) -> (forall k, In k (dkeys l) -> one_line k) -> fair date f32 f64 (mkXLog [] [] [] [] l).
  Proof.
    intros H1 H2. constructor; cbn; try (split; [constructor|]); try (intros; contradiction).
    - constructor; cbn; try (intros; contradiction). constructor.
    - split; [exact H1|exact H2].
  Qed.
  Lemma C80_false_proof : exists log log', fair date f32 f64 log /\ x_props log = [(str "ok", PBool false)] /\
    to_client log = Ok log' /\ l_properties log' = [(str "ok", VBool true)].
  Proof.
    exists (mkXLog [] [] [] [] [(str "ok", PBool false)]), (mkLog [] [] [] [] [(str "ok", VBool true)] []).
    split; [|split; [reflexivity|split; reflexivity]]. apply fair_props; [repeat constructor; intros []|]. intros k [<-|[]] c Hc. cbn in Hc. cbn [In]. intuition (subst; lia).
  Qed.
  Lemma C80_ids_proof u : exists log log', fair date f32 f64 log /\ x_props log = [(str "id", PGuid u)] /\ to_client log = Ok log' /\ l_properties log' = [].
  Proof.
    exists (mkXLog [] [] [] [] [(str "id", PGuid u)]).
    assert (F : fair date f32 f64 (mkXLog [] [] [] [] [(str "id", PGuid u)])).
    { apply fair_props; [repeat constructor; intros []|]. intros k [<-|[]] c Hc. cbn in Hc. cbn [In]. intuition (subst; lia). }
    eexists. split; [exact F|]. split; [reflexivity|]. split; [rewrite CrossProofs2.reading; reflexivity|reflexivity].
  Qed.
End Facts80.
