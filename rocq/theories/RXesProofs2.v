From Coq Require Import Sorting.Permutation Sorting.Sorted Lia Bool.
From Verif Require Import Py PyFacts HashModel EqProofs TextModel TextSpec TextProofs XesModel XesProofs WireModel RXesModel RXesSpec RXesProofs.

Lemma escaped_escape s t : escaped s t -> t = escape s.
Proof.
  induction 1 as [|c s t H _ IH| | | | |]; [reflexivity| |subst; reflexivity..].
  subst. unfold escape. cbn [flat_map]. rewrite escape_char_plain by assumption. reflexivity.
Qed.
Lemma escaped_iff s t : escaped s t <-> t = escape s.
Proof. split; [apply escaped_escape|]. intros ->. apply escape_escaped. Qed.
Lemma escape_grows s : ~ markup_free s -> length s + 3 <= length (escape s).
Proof.
  intros H. destruct (Exists_dec (fun c => In c [34; 38; 39; 60; 62]%N) s (fun c => in_dec N.eq_dec c _)) as [E|E].
  - clear H. induction E as [c s H|c s _ IH]; unfold escape in *; cbn [flat_map length]; rewrite app_length.
    + pose proof (escape_char_long c H). pose proof (escape_length s) as L. unfold escape in L. lia.
    + assert (1 <= length (escape_char c)).
      { unfold escape_char. repeat (destruct (N.eqb _ _); [cbn; lia|]). cbn. lia. }
      lia.
  - exfalso. apply H. intros c Hc A. apply E. apply Exists_exists. exists c. split; assumption.
Qed.
Lemma escaped_same_iff s t : escaped s t -> (s = t <-> markup_free s).
Proof. intros H. apply escaped_escape in H. subst. rewrite <- escape_same. split; congruence. Qed.
Lemma escaped_longer s t : escaped s t -> ~ markup_free s -> length s + 3 <= length t.
Proof. intros H. apply escaped_escape in H. subst. apply escape_grows. Qed.
(* escaped texts are not free of markup, so each time they grow again *)
Lemma escaped_again s t : escaped s t -> ~ markup_free s -> ~ markup_free t.
Proof.
  intros H N F. apply escaped_escape in H. subst. apply N. apply escape_same.
  apply escape_same in F. apply escape_inj in F. assumption.
Qed.

Lemma sort_id {A} (l : list (pystr * A)) : StronglySorted (fun a b => str_leb (fst a) (fst b) = true) l -> sort_by_first l = l.
Proof.
  induction 1 as [|x l _ IH H]; [reflexivity|]. cbn [sort_by_first fold_right]. fold (sort_by_first l). rewrite IH.
  destruct l as [|y l]; [reflexivity|]. cbn. inversion H; subst. match goal with E : str_leb _ _ = true |- _ => rewrite E end. reflexivity.
Qed.

Section RT2.
  Variables date f32 f64 : Type.
  Variables (show_date : date -> pystr) (show_f32 : f32 -> pystr) (show_f64 : f64 -> pystr).
  Variables (parse_date : pystr -> option date) (parse_f64 : pystr -> option f64) (parse_uuid : pystr -> option uuid).
  Notation pval := (pval date f32 f64).
  Notation xevent := (xevent date f32 f64).
  Notation xlog := (xlog date f32 f64).
  Notation read_log := (read_log f32 parse_date parse_f64 parse_uuid).
  Notation write_log := (write_log show_date show_f32 show_f64).
  Notation becomes := (becomes date f32 f64 show_date show_f32 show_f64 parse_date parse_f64 parse_uuid).
  Notation at_key := (at_key date f32 f64 show_date show_f32 show_f64 parse_date parse_f64 parse_uuid).
  Notation default_at := (default_at date f32 f64 show_date show_f32 show_f64 parse_date parse_f64 parse_uuid).
  Notation stamp := (stamp date f32 f64 show_date show_f32 show_f64 parse_date parse_f64 parse_uuid).
  Notation comes_back := (comes_back date f32 f64 show_date show_f32 show_f64 parse_date parse_f64 parse_uuid).
  Notation events_back := (events_back date f32 f64 show_date show_f32 show_f64 parse_date parse_f64 parse_uuid).
  Notation props_back := (props_back date f32 f64 show_date show_f32 show_f64 parse_date parse_f64 parse_uuid).
  Notation plain := (plain date f32 f64 show_date show_f32 show_f64 parse_date parse_f64 parse_uuid).
  Notation reread := (reread date f32 f64 show_date show_f32 show_f64 parse_date parse_f64 parse_uuid).
  Notation rereads := (rereads date f32 f64 show_date show_f32 show_f64 parse_date parse_f64 parse_uuid).
  Notation read_again := (read_again date f32 f64 show_date show_f32 show_f64 parse_date parse_f64 parse_uuid).

  Lemma rereads_props l : props_back l (rereads l).
  Proof.
    induction l as [|[k v] l IH]; [constructor|]. cbn [RXesProofs.rereads flat_map fst snd].
    pose proof (reread_becomes date f32 f64 show_date show_f32 show_f64 parse_date parse_f64 parse_uuid v) as B.
    destruct (RXesProofs.reread _ _ _ _ _ _ _ _ _ v); constructor; assumption.
  Qed.

  Lemma round_trip log : sound date f32 f64 log -> exists log', read_log (write_log log) = Fine log' /\
    Forall2 (events_back log) (filter (fun es => negb (length es =? 0)) (x_traces log)) (x_traces log') /\
    (forall s t, escaped s t ->
       match dget str_eq_dec (x_globals log) s with
       | Some (kv :: d) => exists d', dget str_eq_dec (x_globals log') t = Some d' /\ forall k, at_key (kv :: d) k (dget str_eq_dec d' k)
       | _ => dget str_eq_dec (x_globals log') t = None
       end) /\
    (forall t, In t (dkeys (x_globals log')) -> exists s, escaped s t /\ In s (dkeys (x_globals log))) /\
    Forall2 (fun x x' => escaped (xe_name x) (xe_name x') /\ escaped (xe_prefix x) (xe_prefix x') /\ escaped (xe_uri x) (xe_uri x')) (x_exts log) (x_exts log') /\
    Forall2 (fun c c' => escaped (xc_name c) (xc_name c') /\ Forall2 escaped (xc_keys c) (xc_keys c')) (x_classifiers log) (x_classifiers log') /\
    exists sorted, stably_sorted (x_props log) sorted /\ props_back sorted (x_props log').
  Proof.
    intros S. exists (read_again log). split; [apply read_written; assumption|].
    cbn [RXesProofs.read_again x_traces x_globals x_exts x_classifiers x_props]. split; [|split; [|split; [|split; [|split]]]].
    - assert (P : forall es, In es (x_traces log) -> forall e, In e es -> NoDup (dkeys (x_payload e)) /\ ~ In (str "concept:name") (dkeys (x_payload e)) /\ ~ In (str "time:timestamp") (dkeys (x_payload e))).
      { intros es H e He. eapply (s_payload _ _ _ _ S); eassumption. }
      revert P. generalize (x_traces log) as ts. induction ts as [|es ts IH]; intros P; [constructor|].
      cbn [filter]. assert (T : Forall2 (events_back log) (filter (fun es => negb (length es =? 0)) ts) (map
          (flat_map (fun e => match read_back date f32 f64 show_date show_f32 show_f64 parse_date parse_f64 parse_uuid log e with Some e' => [e'] | None => [] end))
          (filter (fun es0 => match es0 with [] => false | _ :: _ => true end) ts))) by (apply IH; intros es' H; apply P; right; assumption).
      destruct es as [|e es]; [exact T|]. cbn [length Nat.eqb negb map]. constructor; [|exact T].
      assert (Q := P (e :: es) (or_introl eq_refl)). revert Q. generalize (e :: es) as l. clear - S.
      induction l as [|x l IH]; intros Q; [constructor|]. cbn [flat_map].
      destruct (Q x (or_introl eq_refl)) as (A & B & C).
      pose proof (read_back_spec date f32 f64 show_date show_f32 show_f64 parse_date parse_f64 parse_uuid log S x A B C) as RB.
      destruct (read_back _ _ _ _ _ _ _ _ _ log x); cbn [app]; [apply back_kept|apply back_lost]; try assumption; apply IH; intros y Hy; apply Q; right; assumption.
    - intros s t H. apply escaped_escape in H. subst t. rewrite read_globals_get by apply (s_globals _ _ _ _ S).
      destruct (dget str_eq_dec (x_globals log) s) as [[|kv d]|] eqn:E; try reflexivity.
      eexists. split; [reflexivity|]. intros k. apply gput_get. eapply (s_values _ _ _ _ S). apply dget_In with (eqd := str_eq_dec). exact E.
    - intros t H. apply read_globals_keys in H. destruct H as (s & -> & H). exists s. split; [apply escape_escaped|assumption].
    - generalize (x_exts log). induction l as [|x l IH]; [constructor|]. cbn [map]. constructor; [|exact IH]. cbn. repeat split; apply escape_escaped.
    - pose proof (s_keys _ _ _ _ S) as K. revert K. generalize (x_classifiers log). induction l as [|x l IH]; intros K; [constructor|]. cbn [map].
      constructor; [|apply IH; intros c Hc; apply K; right; assumption]. cbn [raw_cls xc_name xc_keys]. split; [apply escape_escaped|].
      destruct (K x (or_introl eq_refl)) as [K1 K2]. rewrite escape_join, split_join_space.
      + clear. induction (xc_keys x) as [|y l IH]; constructor; [apply escape_escaped|assumption].
      + destruct (xc_keys x); [contradiction|discriminate].
      + intros k Hk. apply in_map_iff in Hk. destruct Hk as (k' & <- & Hk). apply escape_no_space. apply K2. assumption.
    - exists (sort_by_first (x_props log)). split; [apply sort_spec|]. apply rereads_props.
  Qed.

  Lemma becomes_same v o : becomes v (Some v) -> becomes v o -> o = Some v.
  Proof. intros A B. symmetry. eapply becomes_fun; eassumption. Qed.

  Lemma exact log : sound date f32 f64 log -> plain log -> exists log', read_log (write_log log) = Fine log' /\
    Forall2 (Forall2 (fun e e' => x_name e' = x_name e /\ x_time e' = x_time e /\ same_map (x_payload e) (x_payload e'))) (x_traces log) (x_traces log') /\
    (forall s, match dget str_eq_dec (x_globals log) s with
               | Some d => exists d', dget str_eq_dec (x_globals log') s = Some d' /\ same_map d d'
               | None => dget str_eq_dec (x_globals log') s = None
               end) /\
    x_exts log' = x_exts log /\ x_classifiers log' = x_classifiers log /\ x_props log' = x_props log.
  Proof.
    intros S P. destruct (round_trip log S) as (log' & R & T & G & GK & X & C & sorted & SS & PB).
    pose proof (read_written date f32 f64 show_date show_f32 show_f64 parse_date parse_f64 parse_uuid log S) as RW.
    rewrite R in RW. injection RW as RW.
    exists log'. split; [assumption|]. split; [|split; [|split; [|split]]].
    - assert (F : filter (fun es => negb (length es =? 0)) (x_traces log) = x_traces log).
      { pose proof (p_traces _ _ _ _ _ _ _ _ _ _ P) as N. revert N. generalize (x_traces log). induction l as [|es l IH]; intros N; [reflexivity|].
        destruct es as [|e es]; [exfalso; apply N; left; reflexivity|]. cbn. rewrite IH; [reflexivity|]. intros A. apply N. right. assumption. }
      rewrite F in T. clear F.
      assert (Q : forall es, In es (x_traces log) -> forall e, In e es -> parse_date (show_date (x_time e)) = Some (x_time e) /\
         (forall k v, In (k, v) (x_payload e) -> becomes v (Some v)) /\ ~ In (str "concept:name") (dkeys (x_payload e)) /\ ~ In (str "time:timestamp") (dkeys (x_payload e))).
      { intros es H e He. destruct (p_events _ _ _ _ _ _ _ _ _ _ P es e H He) as [A B]. destruct (s_payload _ _ _ _ S es e H He) as (_ & B2 & B3). repeat split; assumption. }
      assert (DN : forall k o, default_at log k o -> o = None).
      { intros k o. unfold RXesSpec.default_at. destruct (dget str_eq_dec (x_globals log) (str "event")) as [d|] eqn:E; [|tauto].
        apply dget_In in E. destruct (p_scopes _ _ _ _ _ _ _ _ _ _ P _ _ E) as (_ & _ & A). contradiction. }
      clear G GK X C SS PB RW. revert T Q. generalize (x_traces log) as ts, (x_traces log') as ts'. intros ts ts' T. induction T as [|es es' ts ts' H _ IH]; intros Q; [constructor|].
      constructor; [|apply IH; intros es0 H0; apply Q; right; assumption].
      pose proof (Q es (or_introl eq_refl)) as Q1. clear - H Q1 DN. induction H as [|e e' l l' HC _ IH|e l l' HL _ IH]; [constructor| |].
      + constructor; [|apply IH; intros y Hy; apply Q1; right; assumption].
        destruct (Q1 e (or_introl eq_refl)) as (A & B & B2 & B3). destruct HC as (H1 & H2 & H3 & H4 & H5).
        split; [assumption|]. split; [unfold RXesSpec.stamp in H2; rewrite A in H2; congruence|]. intros k.
        destruct (str_eq_dec k (str "concept:name")) as [->|K1]; [transitivity (@None pval); [apply dget_None; assumption|symmetry; apply dget_None; assumption]|].
        destruct (str_eq_dec k (str "time:timestamp")) as [->|K2]; [transitivity (@None pval); [apply dget_None; assumption|symmetry; apply dget_None; assumption]|].
        destruct (H5 k K1 K2) as (own & def & O & D & E). rewrite E. apply DN in D. subst def. unfold RXesSpec.at_key in O.
        destruct (dget str_eq_dec (x_payload e) k) as [v|] eqn:V; [|subst; reflexivity].
        apply dget_In in V. rewrite (becomes_same v own (B _ _ V) O). reflexivity.
      + exfalso. destruct (Q1 e (or_introl eq_refl)) as (A & _). unfold RXesSpec.stamp in HL. rewrite A in HL. discriminate.
    - intros s. specialize (G s s). destruct (dget str_eq_dec (x_globals log) s) as [d|] eqn:E.
      + apply dget_In in E. destruct (p_scopes _ _ _ _ _ _ _ _ _ _ P _ _ E) as (M & N & _). apply escape_same in M.
        assert (H : escaped s s) by (rewrite <- M at 2; apply escape_escaped). specialize (G H).
        destruct d as [|kv d]; [contradiction|]. destruct G as (d' & G1 & G2). exists d'. split; [assumption|]. intros k. specialize (G2 k). unfold RXesSpec.at_key in G2.
        destruct (dget str_eq_dec (kv :: d) k) as [v|] eqn:V; [|congruence]. apply dget_In in V.
        symmetry. apply (becomes_same v); [|assumption]. eapply (p_defaults _ _ _ _ _ _ _ _ _ _ P); eassumption.
      + apply dget_None. intros A. apply GK in A. destruct A as (s' & A & B). apply dget_Some_key with (eqd := str_eq_dec) in B. destruct B as (d & B).
        apply dget_In in B. destruct (p_scopes _ _ _ _ _ _ _ _ _ _ P _ _ B) as (M & _). apply (escaped_same_iff _ _ A) in M. subst s'.
        apply (In_dget str_eq_dec) in B; [congruence|apply (s_globals _ _ _ _ S)].
    - pose proof (p_exts _ _ _ _ _ _ _ _ _ _ P) as Q. revert X Q. generalize (x_exts log), (x_exts log'). intros a b X. induction X as [|x x' a b (H1 & H2 & H3) _ IH]; intros Q; [reflexivity|].
      rewrite IH by (intros y Hy; apply Q; right; assumption). f_equal. destruct (Q x (or_introl eq_refl)) as (A & B & C').
      apply (escaped_same_iff _ _ H1) in A. apply (escaped_same_iff _ _ H2) in B. apply (escaped_same_iff _ _ H3) in C'. destruct x, x'; cbn in *; subst; reflexivity.
    - pose proof (p_cls _ _ _ _ _ _ _ _ _ _ P) as Q. revert C Q. generalize (x_classifiers log), (x_classifiers log'). intros a b XC. induction XC as [|x x' a b (H1 & H2) _ IH]; intros Q; [reflexivity|].
      rewrite IH by (intros y Hy; apply Q; right; assumption). f_equal. destruct (Q x (or_introl eq_refl)) as (A & B).
      apply (escaped_same_iff _ _ H1) in A. assert (E : xc_keys x' = xc_keys x).
      { clear - H2 B. induction H2 as [|k k' l l' H _ IH]; [reflexivity|]. rewrite IH by (intros y Hy; apply B; right; assumption).
        f_equal. symmetry. apply (escaped_same_iff _ _ H). apply B. left. reflexivity. }
      destruct x, x'; cbn in *; subst; reflexivity.
    - subst log'. cbn [RXesProofs.read_again x_props]. rewrite sort_id by apply (p_sorted _ _ _ _ _ _ _ _ _ _ P).
      pose proof (p_props _ _ _ _ _ _ _ _ _ _ P) as Q. revert Q. generalize (x_props log). clear. induction l as [|[k v] l IH]; intros Q; [reflexivity|].
      cbn [RXesProofs.rereads flat_map fst snd].
      assert (E : reread v = Some v) by (apply (becomes_same v); [eapply Q; left; reflexivity|apply reread_becomes]). rewrite E. cbn [app]. f_equal.
      apply IH. intros k' v' H. eapply Q. right. exact H.
  Qed.

  Lemma values_once v : exists o, becomes v o /\ forall o', becomes v o' -> o' = o.
  Proof. exists (reread v). split; [apply reread_becomes|]. intros o'. apply becomes_reread. Qed.

  Lemma no_time_no_event n d (payload : dict pystr pval) : parse_date (show_date d) = None -> NoDup (dkeys payload) ->
    ~ In (str "concept:name") (dkeys payload) -> ~ In (str "time:timestamp") (dkeys payload) ->
    exists log', read_log (write_log (mkXLog [[mkXEvent n d payload]] [] [] [] [])) = Fine log' /\ x_traces log' = [[]].
  Proof.
    intros H H1 H2 H3. assert (S : sound date f32 f64 (mkXLog [[mkXEvent n d payload]] [] [] [] [])).
    { constructor; cbn; [constructor|intros s d' []| |intros c []]. intros es e [<-|[]] [<-|[]]. cbn. repeat split; assumption. }
    destruct (round_trip _ S) as (log' & R & T & _). exists log'. split; [exact R|]. cbn in T. inversion T as [|es es' l l' E T2]; subst.
    inversion T2; subst. f_equal. inversion E as [|e e' l l' (_ & B & _) _|e l l' _ E2]; subst.
    - unfold RXesSpec.stamp in B. cbn [x_time] in B. rewrite H in B. destruct B as (v & B1 & B2). cbn in B1. subst v. discriminate.
    - inversion E2. reflexivity.
  Qed.

  Lemma extensions_refuted : exists log : xlog, sound date f32 f64 log /\
    forall log', read_log (write_log log) = Fine log' -> x_exts log' <> x_exts log.
  Proof.
    exists (mkXLog [] [] [mkXExt (str "&") [] []] [] []). split.
    - constructor; cbn; [constructor|intros s d' []|intros es e []|intros c []].
    - intros log' H. vm_compute in H. injection H as <-. discriminate.
  Qed.
End RT2.

Lemma markup s t : escaped s t -> (s = t <-> markup_free s) /\ (~ markup_free s -> length s + 3 <= length t /\ ~ markup_free t).
Proof.
  intros E. split; [apply escaped_same_iff; exact E|]. intros N. split; [eapply escaped_longer; eassumption|eapply escaped_again; eassumption].
Qed.
