(** Proofs about logs the backend writes and the client reads. *)
From Coq Require Import Lia Bool Sorting.Permutation Sorting.Sorted.
From Verif Require Import Py PyFacts LogModel EqSpec HashModel EqProofs TextModel XesModel XesProofs WireModel
  RXesModel RXesSpec RXesProofs CrossModel CrossSpec.

(* ---- white space ---- *)
Notation nf := normal_space.
Lemma nf_escape s : unescape (nf (escape s)) = Some (nf s).
Proof.
  unfold unescape. remember (length s) as n eqn:L. revert s L. induction n as [n IHn] using lt_wf_ind. intros s ->.
  assert (IH : forall t, length t < length s -> unescape_go (nf (escape t)) None = Some (nf t)) by (intros t Ht; eapply IHn; [exact Ht|reflexivity]). clear IHn.
  destruct s as [|c s]; [reflexivity|].
  assert (I1 := IH s (Nat.lt_succ_diag_r _)).
  unfold escape in *. cbn [flat_map]. unfold escape_char at 1.
  destruct (N.eqb_spec c 60) as [->|N60]; [cbn; cbn in I1; rewrite I1; reflexivity|].
  destruct (N.eqb_spec c 62) as [->|N62]; [cbn; cbn in I1; rewrite I1; reflexivity|].
  destruct (N.eqb_spec c 39) as [->|N39]; [cbn; cbn in I1; rewrite I1; reflexivity|].
  destruct (N.eqb_spec c 38) as [->|N38]; [cbn; cbn in I1; rewrite I1; reflexivity|].
  destruct (N.eqb_spec c 34) as [->|N34]; [cbn; cbn in I1; rewrite I1; reflexivity|].
  cbn [app]. cbn [normal_space]. destruct (N.eqb_spec c 13) as [->|N13].
  - destruct s as [|d s]; [reflexivity|].
    destruct (N.eqb_spec d 10) as [->|N10].
    + cbn [flat_map]. change (escape_char 10) with [10%N]. cbn [app]. change (N.eqb 10 10) with true. cbn iota.
      cbn [unescape_go]. change (N.eqb 32 38) with false. cbn iota. rewrite (IH s) by (cbn; lia). reflexivity.
    + assert (E : forall X Y : pystr, (match flat_map escape_char (d :: s) with d0 :: r' => if N.eqb d0 10 then X else Y | [] => [32%N] end) = Y).
      { intros X Y. cbn [flat_map]. unfold escape_char at 1.
        repeat (match goal with |- context [N.eqb d ?k] => lazymatch k with 10%N => fail | _ => destruct (N.eqb_spec d k) as [->|]; [reflexivity|] end end).
        cbn [app]. destruct (N.eqb_spec d 10); [contradiction|reflexivity]. }
      cbn [flat_map] in E |- *.
      destruct (escape_char d ++ flat_map escape_char s) as [|d0 r'] eqn:Q.
      * exfalso. unfold escape_char in Q. repeat (match type of Q with context [N.eqb d ?k] => destruct (N.eqb d k) end); discriminate.
      * specialize (E [] [32%N]). destruct (N.eqb d0 10); [discriminate|].
        cbn [unescape_go]. change (N.eqb 32 38) with false. cbn iota. rewrite <- Q.
        change (escape_char d ++ flat_map escape_char s) with (flat_map escape_char (d :: s)). rewrite I1. reflexivity.
  - destruct (N.eqb_spec c 10) as [->|N10]; [|destruct (N.eqb_spec c 9) as [->|N9]]; cbn [orb].
    + cbn [unescape_go]. change (N.eqb 32 38) with false. cbn iota. rewrite I1. reflexivity.
    + cbn [unescape_go]. change (N.eqb 32 38) with false. cbn iota. rewrite I1. reflexivity.
    + cbn [unescape_go]. destruct (N.eqb_spec c 38); [contradiction|]. rewrite I1. reflexivity.
Qed.
Lemma nf_flat s : flat s (nf s).
Proof.
  remember (length s) as n eqn:L. revert s L. induction n as [n IHn] using lt_wf_ind. intros s ->.
  assert (IH : forall t, length t < length s -> flat t (nf t)) by (intros t Ht; eapply IHn; [exact Ht|reflexivity]). clear IHn.
  destruct s as [|c s]; [constructor|]. assert (I1 := IH s (Nat.lt_succ_diag_r _)). cbn [normal_space].
  destruct (N.eqb_spec c 13) as [->|N13].
  - destruct s as [|d s]; [apply flat_cr; [discriminate|constructor]|]. destruct (N.eqb_spec d 10) as [->|N10].
    + apply flat_crlf. apply IH. cbn. lia.
    + apply flat_cr; [cbn; congruence|exact I1].
  - destruct (N.eqb_spec c 10) as [->|N10]; [apply flat_blank; [right; left; reflexivity|exact I1]|].
    destruct (N.eqb_spec c 9) as [->|N9]; cbn [orb]; [apply flat_blank; [left; reflexivity|exact I1]|].
    apply flat_same; [|exact I1]. cbn. intuition congruence.
Qed.
Lemma flat_nf s t : flat s t -> t = nf s.
Proof.
  induction 1 as [|c s t H _ IH|c s t H _ IH|s t _ IH|s t H _ IH]; [reflexivity| | |subst; reflexivity|]; subst; cbn [normal_space].
  - cbn [In] in H. destruct (N.eqb_spec c 13) as [->|]; [tauto|]. destruct (N.eqb_spec c 10) as [->|]; [tauto|]. destruct (N.eqb_spec c 9) as [->|]; [tauto|]. reflexivity.
  - destruct H as [<-|[<-|[]]]; reflexivity.
  - cbn. destruct s as [|d s]; [reflexivity|]. cbn in H. destruct (N.eqb_spec d 10) as [->|]; [congruence|reflexivity].
Qed.
Lemma nf_one_line s : one_line s -> nf s = s.
Proof.
  intros H. symmetry. apply flat_nf. induction s as [|c s IH]; [constructor|].
  apply flat_same; [apply H; left; reflexivity|apply IH]. intros d Hd. apply H. right. exact Hd.
Qed.
Lemma show_uint_digits u c : In c (show_uint u) -> (48 <= c <= 57)%N.
Proof. induction u; cbn; intros H; [destruct H|..]; (destruct H as [<-|H]; [lia|apply IHu; exact H]). Qed.
Lemma show_int_line z : one_line (show_int z).
Proof.
  intros c H. unfold show_int in H. cbn [In]. destruct (Z.to_int z) as [u|u].
  - apply show_uint_digits in H. lia.
  - destruct H as [<-|H]; [lia|]. apply show_uint_digits in H. lia.
Qed.
Lemma nf_int z : nf (show_int z) = show_int z. Proof. apply nf_one_line, show_int_line. Qed.
Lemma one_line_join l : (forall k, In k l -> one_line k) -> one_line (join_space l).
Proof.
  induction l as [|x l IH]; intros H; [intros c []|]. destruct l as [|y l]; [apply H; left; reflexivity|].
  change (join_space (x :: y :: l)) with (x ++ str " " ++ join_space (y :: l)). intros c A. apply in_app_iff in A. destruct A as [A|A].
  - exact (H x (or_introl eq_refl) c A).
  - apply in_app_iff in A. destruct A as [[<-|[]]|A]; [cbn; lia|]. apply (IH (fun k Hk => H k (or_intror Hk)) c A).
Qed.

Section C80.
  Variables date f32 f64 : Type.
  Variables (show_date : date -> pystr) (show_f32 : f32 -> pystr) (show_f64 : f64 -> pystr).
  Variables (parse_float parse_datetime : pystr -> result pystr).
  Notation pval := (pval date f32 f64).
  Notation xevent := (xevent date f32 f64).
  Notation xlog := (xlog date f32 f64).
  Notation text := (pval_text show_date show_f32 show_f64).
  Notation wtag := (write_payload_tag show_date show_f32 show_f64).
  Notation wevent := (write_event show_date show_f32 show_f64).
  Notation wtrace := (write_trace show_date show_f32 show_f64).
  Notation wglobal := (write_global show_date show_f32 show_f64).
  Notation wlog := (write_log show_date show_f32 show_f64).
  Notation shows := (CrossSpec.shows date f32 f64 show_date show_f32 show_f64).
  Notation taken := (CrossSpec.taken date f32 f64 show_date show_f32 show_f64 parse_float parse_datetime).

  (* ---- the tree ---- *)
  Definition adds (l : list tok) (els : list xml) : Prop :=
    forall r t a c open root, parse_text (l ++ r) ((t, a, c) :: open) root = parse_text r ((t, a, c ++ els) :: open) root.
  Lemma adds_nil : adds [] [].
  Proof. intros r t a c open root. rewrite app_nil_r. reflexivity. Qed.
  Lemma adds_app l1 l2 e1 e2 : adds l1 e1 -> adds l2 e2 -> adds (l1 ++ l2) (e1 ++ e2).
  Proof. intros H1 H2 r t a c open root. rewrite <- app_assoc, H1, H2, app_assoc. reflexivity. Qed.
  Lemma adds_map {A} (f : A -> tok) (g : A -> xml) l : (forall x, adds [f x] [g x]) -> adds (map f l) (map g l).
  Proof. intros H. induction l as [|x l IH]; [apply adds_nil|]. exact (adds_app [f x] (map f l) [g x] (map g l) (H x) IH). Qed.
  Lemma adds_flat {A} (f : A -> list tok) (g : A -> list xml) l : (forall x, adds (f x) (g x)) -> adds (flat_map f l) (flat_map g l).
  Proof. intros H. induction l as [|x l IH]; [apply adds_nil|]. cbn [flat_map]. apply adds_app; [apply H|exact IH]. Qed.
  Lemma adds_empty n attrs d : parse_attrs attrs = Some d -> adds [TEmpty n attrs] [Elem n d []].
  Proof. intros H r t a c open root. cbn [app parse_text]. rewrite H. reflexivity. Qed.
  Lemma adds_elem n attrs d l els : parse_attrs attrs = Some d -> adds l els -> adds (TStart n attrs :: l ++ [TEnd n]) [Elem n d els].
  Proof.
    intros H1 H2 r t a c open root. cbn [app parse_text]. rewrite H1, <- app_assoc, H2. cbn [app parse_text finish]. rewrite str_eqb_refl. reflexivity.
  Qed.

  Definition vel (kv : pystr * pval) : xml := Elem (pval_tag (snd kv)) [(str "key", nf (fst kv)); (str "value", nf (text (snd kv)))] [].
  Lemma adds_val kv : adds [wtag kv] [vel kv].
  Proof.
    apply adds_empty. cbn [map fst snd parse_attrs]. rewrite !nf_escape. reflexivity.
  Qed.
  Definition xel (x : xext) : xml := Elem (str "extension") [(str "name", nf (xe_name x)); (str "uri", nf (xe_uri x)); (str "prefix", nf (xe_prefix x))] [].
  Lemma adds_ext x : adds [write_extension x] [xel x].
  Proof. apply adds_empty. cbn [map fst snd parse_attrs]. rewrite !nf_escape. reflexivity. Qed.
  Definition cel (x : xcls) : xml := Elem (str "classifier") [(str "name", nf (xc_name x)); (str "keys", nf (join_space (xc_keys x)))] [].
  Lemma adds_cls x : adds [write_classifier x] [cel x].
  Proof. apply adds_empty. cbn [map fst snd parse_attrs]. rewrite !nf_escape. reflexivity. Qed.
  Definition gel (sc : pystr * list (pystr * pval)) : xml := Elem (str "global") [(str "scope", nf (fst sc))] (map vel (snd sc)).
  Lemma adds_glb sc : adds (wglobal sc) [gel sc].
  Proof. apply adds_elem; [cbn [parse_attrs]; rewrite nf_escape; reflexivity|]. apply adds_map. exact adds_val. Qed.
  Definition sorted_attrs (e : xevent) : list (pystr * pval) :=
    (str "concept:name", PString (x_name e)) :: (str "time:timestamp", PDate (x_time e)) :: sort_by_first (x_payload e).
  Definition eel (e : xevent) : xml := Elem (str "event") [] (map vel (sorted_attrs e)).
  Lemma adds_ev e : adds (wevent e) [eel e].
  Proof.
    change (wevent e) with (TStart (str "event") [] :: map wtag (sorted_attrs e) ++ [TEnd (str "event")]).
    apply adds_elem; [reflexivity|]. apply adds_map. exact adds_val.
  Qed.
  Definition tel (es : list xevent) : xml := Elem (str "trace") [] (map eel es).
  Definition full (es : list xevent) : bool := negb (length es =? 0).
  Lemma adds_trc es : adds (wtrace es) (if full es then [tel es] else []).
  Proof.
    destruct es as [|e es]; [apply adds_nil|]. cbn [full length Nat.eqb negb]. apply adds_elem; [reflexivity|].
    replace (map eel (e :: es)) with (flat_map (fun x => [eel x]) (e :: es)); [apply adds_flat; exact adds_ev|].
    generalize (e :: es) as l. induction l as [|x l IH]; [reflexivity|]. cbn [flat_map map app]. rewrite IH. reflexivity.
  Qed.
  Definition children (log : xlog) : list xml :=
    map xel (x_exts log) ++ map cel (x_classifiers log) ++ map vel (sort_by_first (x_props log)) ++
    map gel (ordered_globals (x_globals log)) ++ map tel (filter full (x_traces log)).
  Lemma tree log : parse_text (wlog log) [] None = Some (Elem (str "log") [] (children log)).
  Proof.
    assert (A : adds (map write_extension (x_exts log) ++ map write_classifier (x_classifiers log) ++ map wtag (sort_by_first (x_props log)) ++
        flat_map wglobal (ordered_globals (x_globals log)) ++ flat_map wtrace (x_traces log)) (children log)).
    { apply adds_app; [apply adds_map; exact adds_ext|]. apply adds_app; [apply adds_map; exact adds_cls|].
      apply adds_app; [apply adds_map; exact adds_val|]. apply adds_app.
      - replace (map gel (ordered_globals (x_globals log))) with (flat_map (fun x => [gel x]) (ordered_globals (x_globals log))); [apply adds_flat; exact adds_glb|].
        generalize (ordered_globals (x_globals log)) as l. induction l as [|x l IH]; [reflexivity|]. cbn [flat_map map app]. rewrite IH. reflexivity.
      - replace (map tel (filter full (x_traces log))) with (flat_map (fun es => if full es then [tel es] else []) (x_traces log)); [apply adds_flat; exact adds_trc|].
        generalize (x_traces log) as l. induction l as [|es l IH]; [reflexivity|]. cbn [flat_map filter]. rewrite IH. destruct (full es); reflexivity. }
    unfold RXesModel.write_log. cbn [parse_text parse_attrs].
    specialize (A [TEnd (str "log")] (str "log") [] [] [] None). rewrite <- !app_assoc in A. rewrite A. reflexivity.
  Qed.

  (* ---- values ---- *)
  Definition took (v : pval) : result (option value) :=
    match v with
    | PString s | PLifecycle s => Ok (Some (VStr (nf s)))
    | PBool _ => Ok (Some (VBool true))
    | PInt32 z | PInt64 z | PUint32 z | PUint64 z => Ok (Some (VInt z))
    | PDate d => rmap VDate (parse_datetime (nf (show_date d)))
    | PTimestamp z => rmap VDate (parse_datetime (show_int z))
    | PFloat32 f => rmap VFloat (parse_float (nf (show_f32 f)))
    | PFloat64 f => rmap VFloat (parse_float (nf (show_f64 f)))
    | PGuid _ => Ok None
    end.
  Lemma took_taken v : taken v (took v).
  Proof. destruct v; cbn [took]; econstructor; try apply nf_flat; eauto. Qed.
  Lemma taken_took v r : taken v r -> r = took v.
  Proof.
    intros H. destruct H as [v s t [->| ->] F|b|v z [->|[->|[->| ->]]]|d t F|z|f t F|f t F|u]; try reflexivity; apply flat_nf in F; subst; reflexivity.
  Qed.
  Lemma text_shows v : shows v (text v).
  Proof. destruct v; cbn [pval_text]; econstructor; eauto; fail || (destruct b; reflexivity). Qed.
  Lemma shows_text_of v s : shows v s -> s = text v.
  Proof. intros H. destruct H as [|v s [->| ->]|b|v z [->|[->|[->|[->| ->]]]]| | |]; reflexivity. Qed.

  Notation cadd := (add_value parse_float parse_datetime).
  Definition put (d : dict pystr value) (kv : pystr * pval) : result (dict pystr value) :=
    match took (snd kv) with Ok (Some v) => Ok (dset str_eq_dec d (nf (fst kv)) v) | Ok None => Ok d | Err e => Err e end.
  Lemma put_val kv d : (if is_value_tag (vel kv) then cadd d (vel kv) else Ok d) = put d kv.
  Proof.
    destruct kv as [k v]. unfold put, add_value, parse_value_tag. unfold vel. cbn [fst snd attrib_of tag_of].
    assert (Gv : forall t, dgetitem str_eq_dec [(str "key", nf k); (str "value", t)] attr_value = Ok t) by reflexivity.
    assert (Gk : forall t, dgetitem str_eq_dec [(str "key", nf k); (str "value", t)] attr_key = Ok (nf k)) by reflexivity.
    rewrite Gv, Gk.
    destruct v; cbn [pval_tag pval_text took]; try rewrite nf_int;
      repeat (match goal with |- context [is_value_tag ?x] => first [change (is_value_tag x) with true|change (is_value_tag x) with false] end);
      cbn iota; cbn [bind];
      repeat (match goal with |- context [str_eqb (get_tag_wo_xmlns ?x) ?y] => first [change (str_eqb (get_tag_wo_xmlns x) y) with true|change (str_eqb (get_tag_wo_xmlns x) y) with false] end);
      cbn iota zeta; try rewrite parse_show_int; try reflexivity;
      try (destruct (parse_datetime _); reflexivity); try (destruct (parse_float _); reflexivity).
    destruct b; reflexivity.
  Qed.
  Lemma put_event g e : XesModel.read_event parse_float parse_datetime g (eel e) = loopM put (sorted_attrs e) (from_defaults g tag_event).
  Proof.
    unfold XesModel.read_event, eel. cbn [children_of]. generalize (from_defaults g tag_event) as d. generalize (sorted_attrs e) as l.
    induction l as [|kv l IH]; intros d; [reflexivity|]. cbn [map]. rewrite !loopM_cons, put_val. destruct (put d kv); cbn [bind]; [apply IH|reflexivity].
  Qed.
  Lemma put_ok l : (forall v, In v (map snd l) -> exists o, took v = Ok o) -> forall d, exists d', loopM put l d = Ok d'.
  Proof.
    induction l as [|[k v] l IH]; intros H d; [exists d; reflexivity|]. rewrite loopM_cons. unfold put at 1. cbn [fst snd].
    destruct (H v (or_introl eq_refl)) as [o ->]. destruct o; cbn [bind]; apply IH; intros v' Hv; apply H; right; exact Hv.
  Qed.
  Lemma put_err l e : forall d, loopM put l d = Err e -> exists v, In v (map snd l) /\ took v = Err e.
  Proof.
    induction l as [|[k v] l IH]; intros d H; [discriminate|]. rewrite loopM_cons in H. unfold put at 1 in H. cbn [fst snd] in H.
    destruct (took v) as [o|e'] eqn:E.
    - destruct o; cbn [bind] in H; apply IH in H; destruct H as [w [A B]]; exists w; (split; [right; exact A|exact B]).
    - cbn [bind] in H. injection H as ->. exists v. split; [left; reflexivity|exact E].
  Qed.
  Lemma put_ok_inv l : forall d d', loopM put l d = Ok d' -> forall v, In v (map snd l) -> exists o, took v = Ok o.
  Proof.
    induction l as [|[k v] l IH]; intros d d' H w Hw; [destruct Hw|]. rewrite loopM_cons in H. unfold put at 1 in H. cbn [fst snd] in H.
    destruct (took v) as [o|e'] eqn:E; [|discriminate]. destruct Hw as [<-|Hw]; [exists o; exact E|].
    destruct o; cbn [bind] in H; eapply IH; eauto.
  Qed.
  Lemma put_get l : NoDup (dkeys l) -> (forall k, In k (dkeys l) -> one_line k) -> forall d d', loopM put l d = Ok d' -> forall k,
    dget str_eq_dec d' k = match dget str_eq_dec l k with
                           | Some v => match took v with Ok (Some x) => Some x | _ => dget str_eq_dec d k end
                           | None => dget str_eq_dec d k
                           end.
  Proof.
    induction l as [|[a v] l IH]; intros ND O d d' H k; [injection H as <-; reflexivity|]. inversion ND as [|? ? N1 N2]; subst.
    assert (O' : forall k, In k (dkeys l) -> one_line k) by (intros k' Hk; apply O; right; exact Hk).
    rewrite loopM_cons in H. unfold put at 1 in H. cbn [fst snd] in H. rewrite (nf_one_line a) in H by (apply O; left; reflexivity).
    cbn [dget]. destruct (took v) as [[x|]|e] eqn:E; [| |discriminate]; cbn [bind] in H; rewrite (IH N2 O' _ _ H).
    - destruct (str_eq_dec k a) as [->|N].
      + assert (dget str_eq_dec l a = None) as -> by (apply dget_None; exact N1). rewrite E. apply dget_dset_same.
      + destruct (dget str_eq_dec l k) as [w|]; [destruct (took w) as [[y|]|]; [reflexivity| |]|]; apply dget_dset_other; congruence.
    - destruct (str_eq_dec k a) as [->|N]; [|reflexivity].
      assert (dget str_eq_dec l a = None) as -> by (apply dget_None; exact N1). rewrite E. reflexivity.
  Qed.

  Lemma put_keys l : NoDup (dkeys l) -> (forall k, In k (dkeys l) -> one_line k) -> forall d d', (forall k, In k (dkeys l) -> ~ In k (dkeys d)) ->
    loopM put l d = Ok d' -> dkeys d' = dkeys d ++ map fst (filter (fun kv => match took (snd kv) with Ok (Some _) => true | _ => false end) l).
  Proof.
    induction l as [|[a v] l IH]; intros ND O d d' K H; [injection H as <-; rewrite app_nil_r; reflexivity|]. inversion ND as [|? ? N1 N2]; subst.
    assert (O' : forall k, In k (dkeys l) -> one_line k) by (intros k' Hk; apply O; right; exact Hk).
    rewrite loopM_cons in H. unfold put at 1 in H. cbn [fst snd] in H. rewrite (nf_one_line a) in H by (apply O; left; reflexivity).
    cbn [filter snd]. destruct (took v) as [[x|]|e] eqn:E; [| |discriminate]; cbn [bind] in H.
    - rewrite dset_fresh in H by (apply K; left; reflexivity). rewrite (IH N2 O' _ _) with (2 := H).
      + unfold dkeys. rewrite map_app, <- app_assoc. reflexivity.
      + intros k Hk A. unfold dkeys in A. rewrite map_app, in_app_iff in A. destruct A as [A|[A|[]]]; [exact (K k (or_intror Hk) A)|]. cbn in A. subst. contradiction.
    - rewrite (IH N2 O' _ _) with (2 := H); [reflexivity|]. intros k Hk. apply K. right. exact Hk.
  Qed.
  Lemma sorted_filter (f : pystr * pval -> bool) l : StronglySorted (fun a b => str_leb (fst a) (fst b) = true) l ->
    StronglySorted (fun a b => str_leb a b = true) (map fst (filter f l)).
  Proof.
    induction 1 as [|x l S IH H]; [constructor|]. cbn [filter]. destruct (f x); [|exact IH]. cbn [map]. constructor; [exact IH|].
    rewrite Forall_forall in *. intros k Hk. apply in_map_iff in Hk. destruct Hk as (y & <- & Hy). apply filter_In in Hy. apply H, Hy.
  Qed.
  (* ---- the log ---- *)
  Notation rchild := (read_child parse_float parse_datetime).
  Definition ext_add (m : dict pystr (dict pystr pystr)) (x : xext) := dset str_eq_dec m (nf (xe_name x)) [(ext_prefix, nf (xe_prefix x)); (ext_uri, nf (xe_uri x))].
  Definition cls_add (m : dict pystr (list pystr)) (x : xcls) := dset str_eq_dec m (nf (xc_name x)) (split_go (str " ") (nf (join_space (xc_keys x))) 0 []).
  Definition text_add (d : dict pystr value) (kv : pystr * pval) := dset str_eq_dec d (nf (fst kv)) (VStr (nf (text (snd kv)))).
  Definition glb_add (m : dict pystr (dict pystr value)) (sc : pystr * list (pystr * pval)) :=
    dset str_eq_dec m (nf (fst sc)) (fold_left text_add (snd sc) (match dget str_eq_dec m (nf (fst sc)) with Some d => d | None => [] end)).
  Lemma loop_exts xs : forall t a x c p g ts, loopM rchild (map xel xs) (mkLog t a x c p g, ts) = Ok (mkLog t a (fold_left ext_add xs x) c p g, ts).
  Proof. induction xs as [|y xs IH]; intros t a x c p g ts; [reflexivity|]. cbn [map fold_left]. rewrite loopM_cons. rewrite <- IH. reflexivity. Qed.
  Lemma loop_clss xs : forall t a x c p g ts, loopM rchild (map cel xs) (mkLog t a x c p g, ts) = Ok (mkLog t a x (fold_left cls_add xs c) p g, ts).
  Proof. induction xs as [|y xs IH]; intros t a x c p g ts; [reflexivity|]. cbn [map fold_left]. rewrite loopM_cons. rewrite <- IH. reflexivity. Qed.
  Lemma child_val t a x c p g ts kv : rchild (mkLog t a x c p g, ts) (vel kv) = bind (put p kv) (fun p' => Ok (mkLog t a x c p' g, ts)).
  Proof.
    pose proof (put_val kv p) as P. unfold read_child.
    assert (T1 : str_eqb (get_tag_wo_xmlns (tag_of (vel kv))) tag_trace = false) by (destruct kv as [k []]; reflexivity).
    assert (T2 : str_eqb (get_tag_wo_xmlns (tag_of (vel kv))) tag_extension = false) by (destruct kv as [k []]; reflexivity).
    assert (T3 : str_eqb (get_tag_wo_xmlns (tag_of (vel kv))) tag_classifier = false) by (destruct kv as [k []]; reflexivity).
    assert (T4 : str_eqb (get_tag_wo_xmlns (tag_of (vel kv))) tag_global = false) by (destruct kv as [k []]; reflexivity).
    rewrite T1, T2, T3, T4. destruct (is_value_tag (vel kv)); rewrite <- P; reflexivity.
  Qed.
  Lemma loop_vals l : forall t a x c p g ts, loopM rchild (map vel l) (mkLog t a x c p g, ts) = bind (loopM put l p) (fun p' => Ok (mkLog t a x c p' g, ts)).
  Proof.
    induction l as [|kv l IH]; intros t a x c p g ts; [reflexivity|]. cbn [map]. rewrite !loopM_cons, child_val.
    destruct (put p kv); cbn [bind]; [apply IH|reflexivity].
  Qed.
  Lemma loop_texts l : forall d, loopM add_global (map vel l) d = Ok (fold_left text_add l d).
  Proof. induction l as [|kv l IH]; intros d; [reflexivity|]. cbn [map fold_left]. rewrite loopM_cons. rewrite <- IH. reflexivity. Qed.
  Lemma child_glb t a x c p g ts sc : rchild (mkLog t a x c p g, ts) (gel sc) = Ok (mkLog t a x c p (glb_add g sc), ts).
  Proof.
    transitivity (bind (loopM add_global (map vel (snd sc)) (match dget str_eq_dec g (nf (fst sc)) with Some d => d | None => [] end))
      (fun d => Ok (mkLog t a x c p (dset str_eq_dec g (nf (fst sc)) d), ts))); [reflexivity|].
    rewrite loop_texts. reflexivity.
  Qed.
  Lemma loop_glbs l : forall t a x c p g ts, loopM rchild (map gel l) (mkLog t a x c p g, ts) = Ok (mkLog t a x c p (fold_left glb_add l g), ts).
  Proof. induction l as [|sc l IH]; intros t a x c p g ts; [reflexivity|]. cbn [map fold_left]. rewrite loopM_cons, child_glb. cbn [bind]. apply IH. Qed.
  Lemma loop_trcs l : forall log ts, loopM rchild (map tel l) (log, ts) = Ok (log, ts ++ map tel l).
  Proof.
    induction l as [|es l IH]; intros log ts; [rewrite app_nil_r; reflexivity|]. cbn [map]. rewrite loopM_cons.
    change (rchild (log, ts) (tel es)) with (@Ok (eventlog * list xml) (log, ts ++ [tel es])). cbn [bind]. rewrite IH, <- app_assoc. reflexivity.
  Qed.
  Definition event_in g e := loopM put (sorted_attrs e) (from_defaults g tag_event).
  Definition trace_in g es := bind (mapM (event_in g) es) (fun evs => Ok (mkTrace evs (from_defaults g tag_trace))).
  Lemma mapM_ext' {A B} (f g : A -> result B) l : (forall x, f x = g x) -> mapM f l = mapM g l.
  Proof. intros H. induction l as [|x l IH]; [reflexivity|]. cbn [mapM]. rewrite H, IH. reflexivity. Qed.
  Lemma mapM_map' {A B C} (f : B -> result C) (g : A -> B) l : mapM f (map g l) = mapM (fun x => f (g x)) l.
  Proof. induction l as [|x l IH]; [reflexivity|]. cbn [map mapM]. rewrite IH. reflexivity. Qed.
  Lemma trace_el g es : XesModel.read_trace parse_float parse_datetime g (tel es) = trace_in g es.
  Proof.
    unfold XesModel.read_trace, trace_in, tel. cbn [children_of].
    match goal with |- bind (loopM ?f _ (_, ?p)) _ = _ => assert (L : forall l done, loopM f (map eel l) (done, p) = bind (mapM (event_in g) l) (fun evs => Ok (done ++ evs, p))) end.
    { induction l as [|e l IH]; intros done; [cbn; rewrite app_nil_r; reflexivity|]. cbn [map mapM]. rewrite loopM_cons.
      change (is_value_tag (eel e)) with false. change (str_eqb (get_tag_wo_xmlns (tag_of (eel e))) tag_event) with true. cbn iota.
      rewrite put_event. fold (event_in g e). destruct (event_in g e); cbn [bind]; [|reflexivity]. rewrite IH.
      destruct (mapM (event_in g) l); cbn [bind]; [rewrite <- app_assoc|]; reflexivity. }
    rewrite L. destruct (mapM (event_in g) es); reflexivity.
  Qed.
  Notation to_client := (backend_to_client show_date show_f32 show_f64 parse_float parse_datetime).
  Definition G_of (log : xlog) := fold_left glb_add (ordered_globals (x_globals log)) [].
  Lemma reading log : to_client log =
    bind (loopM put (sort_by_first (x_props log)) []) (fun p =>
    bind (mapM (trace_in (G_of log)) (filter full (x_traces log))) (fun ts =>
    Ok (mkLog ts [] (fold_left ext_add (x_exts log) []) (fold_left cls_add (x_classifiers log) []) p (G_of log)))).
  Proof.
    unfold backend_to_client. rewrite tree. unfold read_log_from_tree. cbn [attrib_of children_of fold_left]. unfold children.
    rewrite loopM_app, loop_exts. cbn [bind]. rewrite loopM_app, loop_clss. cbn [bind]. rewrite loopM_app, loop_vals.
    destruct (loopM put (sort_by_first (x_props log)) []) as [p|e]; cbn [bind]; [|reflexivity].
    rewrite loopM_app, loop_glbs. cbn [bind]. rewrite loop_trcs. cbn [bind app l_globals l_attrs l_extensions l_classifiers l_properties].
    rewrite mapM_map'. rewrite (mapM_ext' _ (trace_in (G_of log))) by (intros es; apply trace_el). reflexivity.
  Qed.

  (* ---- when ---- *)
  Lemma mapM_err {A B} (f : A -> result B) l e : mapM f l = Err e -> exists x, In x l /\ f x = Err e.
  Proof.
    induction l as [|x l IH]; [discriminate|]. cbn [mapM]. destruct (f x) as [y|e'] eqn:E; cbn [bind].
    - destruct (mapM f l) as [ys|e'']; cbn [bind]; intros H; [discriminate|]. destruct (IH H) as [z [Z1 Z2]]. exists z. split; [right; exact Z1|exact Z2].
    - intros H. exists x. split; [left; reflexivity|congruence].
  Qed.
  Lemma F2_in_l {A B} (R : A -> B -> Prop) : forall l l', Forall2 R l l' -> forall x, In x l -> exists y, In y l' /\ R x y.
  Proof.
    induction 1 as [|x y l l' H _ IH]; intros z Hz; [destruct Hz|].
    destruct Hz as [<-|Hz]; [exists y; split; [left; reflexivity|exact H]|]. destruct (IH z Hz) as [w [Hw Hr]]. exists w. split; [right; exact Hw|exact Hr].
  Qed.
  Lemma sort_values l v : In v (map snd (@sort_by_first pval l)) <-> In v (map snd l).
  Proof. split; apply Permutation_in; apply Permutation_map; [apply Permutation_sym|]; apply sort_perm. Qed.
  Lemma attrs_values e v : In v (map snd (sorted_attrs e)) <-> In v (map snd (attributes date f32 f64 e)).
  Proof. unfold sorted_attrs, attributes. cbn [map snd In]. rewrite sort_values. reflexivity. Qed.
  Notation value_of := (CrossSpec.value_of date f32 f64).
  Lemma when log : match to_client log with
    | Ok _ => forall v, value_of log v -> exists o, taken v (Ok o)
    | Err e => exists v, value_of log v /\ taken v (Err e)
    end.
  Proof.
    rewrite reading. destruct (loopM put (sort_by_first (x_props log)) []) as [p|e] eqn:P; cbn [bind].
    - destruct (mapM (trace_in (G_of log)) (filter full (x_traces log))) as [ts|e] eqn:M; cbn [bind].
      + intros v [H|(es & e & H1 & H2 & H3)].
        * apply sort_values in H. destruct (put_ok_inv _ _ _ P v H) as [o E]. exists o. rewrite <- E. apply took_taken.
        * apply mapM_ok_inv in M. assert (F : In es (filter full (x_traces log))) by (apply filter_In; split; [exact H1|destruct es; [destruct H2|reflexivity]]).
          destruct (F2_in_l _ _ _ M es F) as (t & _ & T). unfold trace_in in T. destruct (mapM (event_in (G_of log)) es) as [evs|] eqn:M2; [|discriminate].
          apply mapM_ok_inv in M2. destruct (F2_in_l _ _ _ M2 e H2) as (d & _ & D). unfold event_in in D.
          apply attrs_values in H3. destruct (put_ok_inv _ _ _ D v H3) as [o E]. exists o. rewrite <- E. apply took_taken.
      + apply mapM_err in M. destruct M as (es & H1 & T). unfold trace_in in T. destruct (mapM (event_in (G_of log)) es) as [evs|e'] eqn:M2; [discriminate|].
        cbn [bind] in T. injection T as ->. apply mapM_err in M2. destruct M2 as (x & H2 & D). unfold event_in in D. apply put_err in D. destruct D as (v & H3 & E).
        exists v. split; [|rewrite <- E; apply took_taken]. right. exists es, x. apply filter_In in H1. split; [apply H1|]. split; [exact H2|]. apply attrs_values. exact H3.
    - apply put_err in P. destruct P as (v & H & E). exists v. split; [left; apply sort_values; exact H|]. rewrite <- E. apply took_taken.
  Qed.
  Lemma C80_when_proof log : (exists log', to_client log = Ok log') <-> (forall v, value_of log v -> exists o, taken v (Ok o)).
  Proof.
    pose proof (when log) as W. split.
    - intros [log' E]. rewrite E in W. exact W.
    - intros H. destruct (to_client log) as [log'|e]; [exists log'; reflexivity|]. destruct W as (v & A & B). destruct (H v A) as [o C].
      apply taken_took in B, C. congruence.
  Qed.
  Lemma C80_error_proof log e : to_client log = Err e -> exists v, value_of log v /\ taken v (Err e).
  Proof. intros E. pose proof (when log) as W. rewrite E in W. exact W. Qed.

  (* ---- what ---- *)
  Lemma texts_get l : NoDup (dkeys l) -> (forall k, In k (dkeys l) -> one_line k) -> forall d k,
    dget str_eq_dec (fold_left text_add l d) k = match dget str_eq_dec l k with Some v => Some (VStr (nf (text v))) | None => dget str_eq_dec d k end.
  Proof.
    induction l as [|[a v] l IH]; intros ND O d k; [reflexivity|]. inversion ND as [|? ? N1 N2]; subst. cbn [fold_left dget].
    rewrite IH; [|exact N2|intros k' Hk; apply O; right; exact Hk]. unfold text_add. cbn [fst snd]. rewrite (nf_one_line a) by (apply O; left; reflexivity).
    destruct (str_eq_dec k a) as [->|N].
    - assert (dget str_eq_dec l a = None) as -> by (apply dget_None; exact N1). apply dget_dset_same.
    - destruct (dget str_eq_dec l k); [reflexivity|]. apply dget_dset_other. congruence.
  Qed.
  Lemma texts_NoDup l : forall d, NoDup (dkeys d) -> NoDup (dkeys (fold_left text_add l d)).
  Proof. induction l as [|kv l IH]; intros d H; [exact H|]. apply IH. apply dset_NoDup. exact H. Qed.
  Lemma glbs_get l : NoDup (dkeys l) -> (forall s, In s (dkeys l) -> one_line s) -> forall m s,
    dget str_eq_dec (fold_left glb_add l m) s = match dget str_eq_dec l s with
      | Some d => Some (fold_left text_add d (match dget str_eq_dec m s with Some d0 => d0 | None => [] end)) | None => dget str_eq_dec m s end.
  Proof.
    induction l as [|[a v] l IH]; intros ND O m s; [reflexivity|]. inversion ND as [|? ? N1 N2]; subst. cbn [fold_left dget].
    rewrite IH; [|exact N2|intros k' Hk; apply O; right; exact Hk]. unfold glb_add. cbn [fst snd]. rewrite (nf_one_line a) by (apply O; left; reflexivity).
    destruct (str_eq_dec s a) as [->|N].
    - assert (dget str_eq_dec l a = None) as -> by (apply dget_None; exact N1). rewrite !dget_dset_same. reflexivity.
    - rewrite !dget_dset_other by congruence. reflexivity.
  Qed.
  Notation fair := (CrossSpec.fair date f32 f64).
  Notation text_at := (CrossSpec.text_at date f32 f64 show_date show_f32 show_f64).
  Notation scope_at := (CrossSpec.scope_at date f32 f64 show_date show_f32 show_f64).
  Notation taken_at := (CrossSpec.taken_at date f32 f64 show_date show_f32 show_f64 parse_float parse_datetime).
  Section Fair.
    Variable log : xlog.
    Hypothesis F : fair log.
    Let SD := f_sound _ _ _ _ F.
    Lemma G_get s : dget str_eq_dec (G_of log) s = option_map (fun d => fold_left text_add (sort_by_first d) []) (dget str_eq_dec (x_globals log) s).
    Proof.
      unfold G_of. rewrite glbs_get.
      - rewrite ordered_get. cbn [dget]. destruct (dget str_eq_dec (x_globals log) s); reflexivity.
      - eapply Permutation_NoDup; [apply ordered_keys|apply (s_globals _ _ _ _ SD)].
      - intros s' H. eapply Permutation_in in H; [|apply Permutation_sym, ordered_keys]. apply in_map_iff in H. destruct H as ([s0 d] & <- & H).
        exact (proj1 (f_scopes _ _ _ _ F s0 d H)).
    Qed.
    Lemma sorted_texts s d k : dget str_eq_dec (x_globals log) s = Some d ->
      dget str_eq_dec (fold_left text_add (sort_by_first d) []) k = match dget str_eq_dec d k with Some v => Some (VStr (nf (text v))) | None => None end.
    Proof.
      intros H. apply dget_In in H. rewrite texts_get, dget_sort; [destruct (dget str_eq_dec d k); reflexivity| |].
      - eapply Permutation_NoDup; [apply keys_sort|exact (s_values _ _ _ _ SD s d H)].
      - intros k' Hk. eapply Permutation_in in Hk; [|apply Permutation_sym, keys_sort]. exact (proj2 (f_scopes _ _ _ _ F s d H) k' Hk).
    Qed.
    Lemma texts_fact s d k : dget str_eq_dec (x_globals log) s = Some d -> text_at d k (dget str_eq_dec (fold_left text_add (sort_by_first d) []) k).
    Proof.
      intros H. rewrite (sorted_texts s) by exact H. unfold CrossSpec.text_at. destruct (dget str_eq_dec d k) as [v|]; [|reflexivity].
      exists (text v), (nf (text v)). split; [apply text_shows|]. split; [apply nf_flat|reflexivity].
    Qed.
    Lemma defaults_get s k : dget str_eq_dec (from_defaults (G_of log) s) k = match dget str_eq_dec (G_of log) s with Some d => dget str_eq_dec d k | None => None end.
    Proof.
      unfold from_defaults. rewrite G_get. destruct (dget str_eq_dec (x_globals log) s) as [d|]; cbn [option_map]; [|reflexivity].
      rewrite dget_fold_dset by (apply texts_NoDup; constructor). destruct (dget str_eq_dec _ k); reflexivity.
    Qed.
    Lemma scope_fact s k : scope_at log s k (dget str_eq_dec (from_defaults (G_of log) s) k).
    Proof.
      rewrite defaults_get, G_get. unfold CrossSpec.scope_at. destruct (dget str_eq_dec (x_globals log) s) as [d|] eqn:E; cbn [option_map]; [|reflexivity].
      apply (texts_fact s). exact E.
    Qed.
    Lemma taken_fact l d d' : NoDup (dkeys l) -> (forall k, In k (dkeys l) -> one_line k) -> loopM put l d = Ok d' -> forall k,
      exists own, taken_at l k own /\ dget str_eq_dec d' k = match own with Some v => Some v | None => dget str_eq_dec d k end.
    Proof.
      intros ND O H k. rewrite (put_get l ND O d d' H k). unfold CrossSpec.taken_at. destruct (dget str_eq_dec l k) as [v|] eqn:E; [|exists None; auto].
      destruct (put_ok_inv l d d' H v) as [o T]; [apply dget_In in E; apply (in_map snd _ _ E)|].
      exists o. split; [rewrite <- T; apply took_taken|]. rewrite T. destruct o; reflexivity.
    Qed.
    Lemma event_fact es e d : In es (x_traces log) -> In e es -> event_in (G_of log) e = Ok d ->
      CrossSpec.event_taken date f32 f64 show_date show_f32 show_f64 parse_float parse_datetime log e d.
    Proof.
      intros H1 H2 D k. destruct (s_payload _ _ _ _ SD es e H1 H2) as (ND & P1 & P2).
      assert (PK : Permutation (dkeys (x_payload e)) (dkeys (sort_by_first (x_payload e)))) by apply keys_sort.
      assert (N : NoDup (dkeys (sorted_attrs e))).
      { unfold sorted_attrs, dkeys. cbn [map fst]. constructor; [|constructor].
        - intros [A|A]; [discriminate|]. apply P1. eapply Permutation_in; [apply Permutation_sym, PK|exact A].
        - intros A. apply P2. eapply Permutation_in; [apply Permutation_sym, PK|exact A].
        - eapply Permutation_NoDup; [exact PK|exact ND]. }
      assert (O : forall a, In a (dkeys (sorted_attrs e)) -> one_line a).
      { intros a. unfold sorted_attrs, dkeys. cbn [map fst In]. intros [<-|[<-|A]].
        - intros c Hc. cbn in Hc. cbn [In]. intuition (subst; lia).
        - intros c Hc. cbn in Hc. cbn [In]. intuition (subst; lia).
        - apply (f_keys _ _ _ _ F es e a H1 H2). eapply Permutation_in; [apply Permutation_sym, PK|exact A]. }
      destruct (taken_fact _ _ _ N O D k) as (own & A & B). exists own, (dget str_eq_dec (from_defaults (G_of log) (str "event")) k).
      split; [|split; [apply scope_fact|exact B]]. unfold CrossSpec.taken_at, attributes in *. unfold sorted_attrs in A.
      cbn [dget] in A |- *. rewrite dget_sort in A. exact A.
    Qed.
    Lemma fold_exts_fact : Forall2 (fun x nc => fst nc = xe_name x /\ exists p u, flat (xe_prefix x) p /\ flat (xe_uri x) u /\ snd nc = [(str "prefix", p); (str "uri", u)])
      (x_exts log) (fold_left ext_add (x_exts log) []).
    Proof.
      destruct (f_exts _ _ _ _ F) as [ND O].
      assert (E : forall xs m, NoDup (map xe_name xs) -> (forall x, In x xs -> one_line (xe_name x)) -> (forall x, In x xs -> ~ In (xe_name x) (dkeys m)) ->
        fold_left ext_add xs m = m ++ map (fun x => (xe_name x, [(ext_prefix, nf (xe_prefix x)); (ext_uri, nf (xe_uri x))])) xs).
      { induction xs as [|x xs IH]; intros m N1 O1 K; [rewrite app_nil_r; reflexivity|]. inversion N1 as [|? ? N2 N3]; subst. cbn [fold_left map].
        assert (A : ext_add m x = m ++ [(xe_name x, [(ext_prefix, nf (xe_prefix x)); (ext_uri, nf (xe_uri x))])]).
        { unfold ext_add. rewrite (nf_one_line (xe_name x)) by (apply O1; left; reflexivity). apply dset_fresh. apply K. left. reflexivity. }
        rewrite A, IH, <- app_assoc; [reflexivity|exact N3|intros y Hy; apply O1; right; exact Hy|].
        intros y Hy B. unfold dkeys in B. rewrite map_app, in_app_iff in B. destruct B as [B|[B|[]]]; [exact (K y (or_intror Hy) B)|].
        cbn in B. apply N2. rewrite B. apply in_map. exact Hy. }
      rewrite E by (first [exact ND|exact O|intros x _ []]). cbn [app]. clear E ND O. induction (x_exts log) as [|x xs IH]; [constructor|].
      cbn [map]. constructor; [|exact IH]. split; [reflexivity|]. exists (nf (xe_prefix x)), (nf (xe_uri x)). split; [apply nf_flat|]. split; [apply nf_flat|reflexivity].
    Qed.
    Lemma fold_cls_fact : fold_left cls_add (x_classifiers log) [] = map (fun c => (xc_name c, xc_keys c)) (x_classifiers log).
    Proof.
      destruct (f_cls _ _ _ _ F) as [ND O].
      assert (E : forall xs m, NoDup (map xc_name xs) -> (forall x, In x xs -> In x (x_classifiers log)) -> (forall x, In x xs -> ~ In (xc_name x) (dkeys m)) ->
        fold_left cls_add xs m = m ++ map (fun c => (xc_name c, xc_keys c)) xs).
      { induction xs as [|x xs IH]; intros m N1 O1 K; [rewrite app_nil_r; reflexivity|]. inversion N1 as [|? ? N2 N3]; subst. cbn [fold_left map].
        assert (A : cls_add m x = m ++ [(xc_name x, xc_keys x)]).
        { pose proof (O1 x (or_introl eq_refl)) as Hx. destruct (O x Hx) as [L1 L2]. destruct (s_keys _ _ _ _ SD x Hx) as [K1 K2].
          unfold cls_add. rewrite (nf_one_line (xc_name x)) by exact L1. rewrite (nf_one_line (join_space (xc_keys x))) by (apply one_line_join; exact L2).
          rewrite split_join_space by assumption. apply dset_fresh. apply K. left. reflexivity. }
        rewrite A, IH, <- app_assoc; [reflexivity|exact N3|intros y Hy; apply O1; right; exact Hy|].
        intros y Hy B. unfold dkeys in B. rewrite map_app, in_app_iff in B. destruct B as [B|[B|[]]]; [exact (K y (or_intror Hy) B)|].
        cbn in B. apply N2. rewrite B. apply in_map. exact Hy. }
      rewrite E by (first [exact ND|auto|intros x _ []]). reflexivity.
    Qed.
    Lemma C80_read_proof' log' : to_client log = Ok log' ->
      l_attrs log' = [] /\
      Forall2 (CrossSpec.trace_taken date f32 f64 show_date show_f32 show_f64 parse_float parse_datetime log)
        (filter (fun es => negb (length es =? 0)) (x_traces log)) (l_traces log') /\
      (forall s, match dget str_eq_dec (x_globals log) s with
                 | Some d => exists d', dget str_eq_dec (l_globals log') s = Some d' /\ forall k, text_at d k (dget str_eq_dec d' k)
                 | None => dget str_eq_dec (l_globals log') s = None
                 end) /\
      Forall2 (fun x nc => fst nc = xe_name x /\ exists p u, flat (xe_prefix x) p /\ flat (xe_uri x) u /\ snd nc = [(str "prefix", p); (str "uri", u)])
        (x_exts log) (l_extensions log') /\
      l_classifiers log' = map (fun c => (xc_name c, xc_keys c)) (x_classifiers log) /\
      (forall k, taken_at (x_props log) k (dget str_eq_dec (l_properties log') k)) /\
      StronglySorted (fun a b => str_leb a b = true) (dkeys (l_properties log')).
    Proof.
      rewrite reading. destruct (loopM put (sort_by_first (x_props log)) []) as [p|] eqn:P; [|discriminate]. cbn [bind].
      destruct (mapM (trace_in (G_of log)) (filter full (x_traces log))) as [ts|] eqn:M; [|discriminate]. cbn [bind]. intros H. injection H as <-.
      cbn [l_attrs l_traces l_globals l_extensions l_classifiers l_properties]. split; [reflexivity|]. split; [|split; [|split; [exact fold_exts_fact|split; [exact fold_cls_fact|split]]]].
      - change (fun es : list xevent => negb (length es =? 0)) with full. apply mapM_ok_inv in M.
        assert (I : forall es, In es (filter full (x_traces log)) -> In es (x_traces log)) by (intros es He; apply filter_In in He; apply He).
        induction M as [|es t l ts' T M IH]; [constructor|]. constructor; [|apply IH; intros es' He; apply I; right; exact He].
        unfold trace_in in T. destruct (mapM (event_in (G_of log)) es) as [evs|] eqn:M2; [|discriminate]. cbn [bind] in T. injection T as <-.
        split; [|intros k; apply scope_fact]. cbn [t_events]. apply mapM_ok_inv in M2. specialize (I es (or_introl eq_refl)).
        assert (J' : forall e, In e es -> exists es0, In es0 (x_traces log) /\ In e es0) by (intros e He; exists es; auto). clear - SD F M2 J'.
        induction M2 as [|e d l ds D M2 IH]; [constructor|]. constructor; [|apply IH; intros e' He; apply J'; right; exact He].
        destruct (J' e (or_introl eq_refl)) as (es0 & A & B). eapply event_fact; eassumption.
      - intros s. rewrite G_get. destruct (dget str_eq_dec (x_globals log) s) as [d|] eqn:E; cbn [option_map]; [|reflexivity].
        eexists. split; [reflexivity|]. intros k. apply (texts_fact s). exact E.
      - intros k. destruct (f_props _ _ _ _ F) as [ND O].
        assert (PK : Permutation (dkeys (x_props log)) (dkeys (sort_by_first (x_props log)))) by apply keys_sort.
        destruct (taken_fact (sort_by_first (x_props log)) [] p) with (k := k) as (own & A & B); [| |exact P|].
        + eapply Permutation_NoDup; [exact PK|exact ND].
        + intros a Ha. apply O. eapply Permutation_in; [apply Permutation_sym, PK|exact Ha].
        + unfold CrossSpec.taken_at in *. rewrite dget_sort in A. rewrite B. destruct own; exact A.
      - destruct (f_props _ _ _ _ F) as [ND O].
        assert (PK : Permutation (dkeys (x_props log)) (dkeys (sort_by_first (x_props log)))) by apply keys_sort.
        rewrite (put_keys (sort_by_first (x_props log))) with (4 := P).
        + apply sorted_filter, sort_sorted.
        + eapply Permutation_NoDup; [exact PK|exact ND].
        + intros a Ha. apply O. eapply Permutation_in; [apply Permutation_sym, PK|exact Ha].
        + intros k _ [].
    Qed.
  End Fair.
End C80.
