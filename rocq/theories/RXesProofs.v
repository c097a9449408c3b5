From Coq Require Import Sorting.Permutation Sorting.Sorted Lia Bool.
From Verif Require Import Py PyFacts HashModel EqProofs TextModel TextSpec TextProofs XesModel XesProofs WireModel RXesModel RXesSpec.

(* ---- escapes ---- *)
Lemma unescape_char c s : unescape_go (escape_char c ++ s) None = match unescape_go s None with Some r => Some (c :: r) | None => None end.
Proof.
  unfold escape_char.
  destruct (N.eqb_spec c 60); [subst; cbn; destruct (unescape_go s None); reflexivity|].
  destruct (N.eqb_spec c 62); [subst; cbn; destruct (unescape_go s None); reflexivity|].
  destruct (N.eqb_spec c 39); [subst; cbn; destruct (unescape_go s None); reflexivity|].
  destruct (N.eqb_spec c 38); [subst; cbn; destruct (unescape_go s None); reflexivity|].
  destruct (N.eqb_spec c 34); [subst; cbn; destruct (unescape_go s None); reflexivity|].
  cbn [app unescape_go]. destruct (N.eqb_spec c 38); [contradiction|]. reflexivity.
Qed.

Lemma unescape_escape s : unescape (escape s) = Some s.
Proof.
  unfold unescape. induction s as [|c s IH]; [reflexivity|].
  unfold escape in *. cbn [flat_map]. rewrite unescape_char, IH. reflexivity.
Qed.

Lemma escape_inj a b : escape a = escape b -> a = b.
Proof. intros H. pose proof (unescape_escape a) as A. rewrite H, unescape_escape in A. congruence. Qed.

Lemma escape_escaped s : escaped s (escape s).
Proof.
  induction s as [|c s IH]; [constructor|]. unfold escape in *. cbn [flat_map]. unfold escape_char.
  destruct (N.eqb_spec c 60); [subst; constructor; assumption|].
  destruct (N.eqb_spec c 62); [subst; constructor; assumption|].
  destruct (N.eqb_spec c 39); [subst; constructor; assumption|].
  destruct (N.eqb_spec c 38); [subst; constructor; assumption|].
  destruct (N.eqb_spec c 34); [subst; constructor; assumption|].
  constructor; [|assumption]. cbn. intuition congruence.
Qed.

Lemma escape_length s : length s <= length (escape s).
Proof.
  induction s as [|c s IH]; [constructor|]. unfold escape in *. cbn [flat_map]. rewrite app_length. cbn [length].
  assert (1 <= length (escape_char c)).
  { unfold escape_char. repeat (destruct (N.eqb _ _); [cbn; lia|]). cbn. lia. }
  lia.
Qed.

Lemma escape_char_long c : In c [34; 38; 39; 60; 62]%N -> 4 <= length (escape_char c).
Proof. cbn. intros [<-|[<-|[<-|[<-|[<-|[]]]]]]; cbn; lia. Qed.

Lemma escape_char_plain c : ~ In c [34; 38; 39; 60; 62]%N -> escape_char c = [c].
Proof.
  intros H. unfold escape_char.
  destruct (N.eqb_spec c 60); [subst; exfalso; apply H; cbn; tauto|].
  destruct (N.eqb_spec c 62); [subst; exfalso; apply H; cbn; tauto|].
  destruct (N.eqb_spec c 39); [subst; exfalso; apply H; cbn; tauto|].
  destruct (N.eqb_spec c 38); [subst; exfalso; apply H; cbn; tauto|].
  destruct (N.eqb_spec c 34); [subst; exfalso; apply H; cbn; tauto|]. reflexivity.
Qed.

Lemma escape_same s : escape s = s <-> markup_free s.
Proof.
  split.
  - induction s as [|c s IH]; intros H d Hd; [destruct Hd|].
    unfold escape in *. cbn [flat_map] in H.
    destruct (in_dec N.eq_dec c [34; 38; 39; 60; 62]%N) as [Hc|Hc].
    + exfalso. apply (f_equal (@length N)) in H. rewrite app_length in H. pose proof (escape_char_long c Hc).
      pose proof (escape_length s) as L. unfold escape in L. cbn [length] in H. lia.
    + rewrite escape_char_plain in H by assumption. injection H as H. destruct Hd as [<-|Hd]; [assumption|].
      apply IH; assumption.
  - induction s as [|c s IH]; intros H; [reflexivity|].
    unfold escape in *. cbn [flat_map]. rewrite escape_char_plain by (apply H; left; reflexivity).
    rewrite IH; [reflexivity|]. intros d Hd. apply H. right. assumption.
Qed.

Lemma escape_no_space s : ~ In 32%N s -> ~ In 32%N (escape s).
Proof.
  induction s as [|c s IH]; intros H; [intros []|]. unfold escape in *. cbn [flat_map]. rewrite in_app_iff.
  intros [A|A]; [|apply IH in A; [assumption|intros B; apply H; right; assumption]].
  unfold escape_char in A.
  repeat (match type of A with context [N.eqb ?a ?b] => destruct (N.eqb_spec a b) end; [cbn in A; intuition discriminate|]).
  destruct A as [->|[]]. apply H. left. reflexivity.
Qed.

Lemma escape_join l : escape (join_space l) = join_space (map escape l).
Proof.
  induction l as [|x l IH]; [reflexivity|]. destruct l as [|y l]; [reflexivity|].
  change (join_space (x :: y :: l)) with (x ++ 32%N :: join_space (y :: l)).
  change (join_space (map escape (x :: y :: l))) with (escape x ++ 32%N :: join_space (map escape (y :: l))).
  rewrite <- IH. unfold escape. rewrite flat_map_app. reflexivity.
Qed.

Lemma split_join_space l : l <> [] -> (forall k, In k l -> ~ In 32%N k) -> split_go (str " ") (join_space l) 0 [] = l.
Proof.
  intros Hl H. transitivity (split_go (str " ") (joined (str " ") l) 0 []).
  - f_equal. clear. induction l as [|x l IH]; [reflexivity|]. destruct l as [|y l]; [reflexivity|].
    change (join_space (x :: y :: l)) with (x ++ str " " ++ join_space (y :: l)). rewrite IH, joined_cons2. reflexivity.
  - apply split_joined; [discriminate|]. apply (proj2 (splittable_single 32%N l)). split; assumption.
Qed.

(* ---- integers ---- *)
Lemma parse_i64_show z : parse_i64 (show_int z) = if ((- 2 ^ 63 <=? z) && (z <? 2 ^ 63))%Z then Some z else None.
Proof.
  pose proof (parse_show_int z) as P. unfold parse_i64.
  destruct (show_int z) as [|c s] eqn:E; [unfold parse_int in P; cbn in P; discriminate|].
  destruct (N.eqb_spec c 43) as [->|_].
  - exfalso. unfold show_int in E. destruct (Z.to_int z) as [u|u]; [destruct u; cbn in E; discriminate|discriminate].
  - rewrite P. reflexivity.
Qed.

(* ---- sorting ---- *)
Section Sort.
  Context {A : Type}.
  Implicit Types l : list (pystr * A).
  Lemma insert_perm x l : Permutation (x :: l) (insert_first x l).
  Proof.
    induction l as [|y l IH]; [apply Permutation_refl|]. cbn. destruct (str_leb _ _); [apply Permutation_refl|].
    eapply perm_trans; [apply perm_swap|]. apply perm_skip. assumption.
  Qed.
  Lemma sort_perm l : Permutation l (sort_by_first l).
  Proof.
    induction l as [|x l IH]; [apply perm_nil|]. cbn.
    eapply perm_trans; [apply perm_skip; exact IH|]. apply insert_perm.
  Qed.
  Lemma insert_sorted x l : StronglySorted (fun a b => str_leb (fst a) (fst b) = true) l ->
    StronglySorted (fun a b => str_leb (fst a) (fst b) = true) (insert_first x l).
  Proof.
    induction 1 as [|y l Hl IH Hy]; [repeat constructor|]. cbn. destruct (str_leb (fst x) (fst y)) eqn:E.
    - constructor; [constructor; assumption|]. constructor; [assumption|].
      eapply Forall_impl; [|exact Hy]. cbn. intros a Ha. eapply str_leb_trans; eassumption.
    - constructor; [assumption|]. apply Forall_forall. intros a Ha.
      apply (Permutation_in _ (Permutation_sym (insert_perm x l))) in Ha. destruct Ha as [<-|Ha].
      + destruct (str_leb_total (fst x) (fst y)) as [B|B]; congruence.
      + rewrite Forall_forall in Hy. apply Hy. assumption.
  Qed.
  Lemma sort_sorted l : StronglySorted (fun a b => str_leb (fst a) (fst b) = true) (sort_by_first l).
  Proof. induction l as [|x l IH]; [constructor|]. cbn. apply insert_sorted. assumption. Qed.
  Lemma insert_filter n x l :
    filter (fun y => str_eqb (fst y) n) (insert_first x l) = filter (fun y => str_eqb (fst y) n) (x :: l).
  Proof.
    induction l as [|y l IH]; [reflexivity|]. cbn [insert_first]. destruct (str_leb (fst x) (fst y)) eqn:E; [reflexivity|].
    cbn [filter]. rewrite IH. cbn [filter].
    destruct (str_eqb (fst x) n) eqn:X, (str_eqb (fst y) n) eqn:Y; try reflexivity.
    apply str_eqb_eq in X, Y. rewrite X, Y, str_leb_refl in E. discriminate.
  Qed.
  Lemma sort_filter n l : filter (fun y => str_eqb (fst y) n) (sort_by_first l) = filter (fun y => str_eqb (fst y) n) l.
  Proof. induction l as [|x l IH]; [reflexivity|]. cbn [sort_by_first fold_right]. rewrite insert_filter. cbn [filter]. fold (sort_by_first l). rewrite IH. reflexivity. Qed.
  Lemma sort_spec l : stably_sorted l (sort_by_first l).
  Proof. split; [apply sort_perm|]. split; [apply sort_sorted|]. intros n. apply sort_filter. Qed.
  Lemma dget_sort l k : dget str_eq_dec (sort_by_first l) k = dget str_eq_dec l k.
  Proof.
    assert (F : forall m : dict pystr A, dget str_eq_dec m k = match filter (fun y => str_eqb (fst y) k) m with (_, v) :: _ => Some v | [] => None end).
    { induction m as [|[a v] m IH]; [reflexivity|]. cbn. destruct (str_eq_dec k a) as [->|N].
      - rewrite str_eqb_refl. reflexivity.
      - assert (str_eqb a k = false) as -> by (apply str_eqb_neq; congruence). exact IH. }
    rewrite !F, sort_filter. reflexivity.
  Qed.
  Lemma keys_sort l : Permutation (dkeys l) (dkeys (sort_by_first l)).
  Proof. apply Permutation_map. apply sort_perm. Qed.
End Sort.

(* ---- reading what was written ---- *)
Section RT.
  Variables date f32 f64 : Type.
  Variables (show_date : date -> pystr) (show_f32 : f32 -> pystr) (show_f64 : f64 -> pystr).
  Variables (parse_date : pystr -> option date) (parse_f64 : pystr -> option f64) (parse_uuid : pystr -> option uuid).
  Notation pval := (pval date f32 f64).
  Notation xevent := (xevent date f32 f64).
  Notation xlog := (xlog date f32 f64).
  Notation extract := (extract_payload_value f32 parse_date parse_f64 parse_uuid).
  Notation read_event := (read_event f32 parse_date parse_f64 parse_uuid).
  Notation read_trace := (read_trace f32 parse_date parse_f64 parse_uuid).
  Notation read_global := (read_global f32 parse_date parse_f64 parse_uuid).
  Notation read_items := (read_items f32 parse_date parse_f64 parse_uuid).
  Notation read_log := (read_log f32 parse_date parse_f64 parse_uuid).
  Notation write_payload_tag := (write_payload_tag show_date show_f32 show_f64).
  Notation write_event := (write_event show_date show_f32 show_f64).
  Notation write_trace := (write_trace show_date show_f32 show_f64).
  Notation write_global := (write_global show_date show_f32 show_f64).
  Notation write_log := (write_log show_date show_f32 show_f64).
  Notation becomes := (becomes date f32 f64 show_date show_f32 show_f64 parse_date parse_f64 parse_uuid).
  Notation at_key := (at_key date f32 f64 show_date show_f32 show_f64 parse_date parse_f64 parse_uuid).
  Notation default_at := (default_at date f32 f64 show_date show_f32 show_f64 parse_date parse_f64 parse_uuid).
  Notation stamp := (stamp date f32 f64 show_date show_f32 show_f64 parse_date parse_f64 parse_uuid).
  Notation comes_back := (comes_back date f32 f64 show_date show_f32 show_f64 parse_date parse_f64 parse_uuid).
  Notation events_back := (events_back date f32 f64 show_date show_f32 show_f64 parse_date parse_f64 parse_uuid).
  Notation props_back := (props_back date f32 f64 show_date show_f32 show_f64 parse_date parse_f64 parse_uuid).

  (* fuel *)
  Lemma read_event_shorter l : forall p o r, read_event p l = Fine (o, r) -> length r < length l.
  Proof.
    induction l as [|t l IH]; intros p o r H; [discriminate|]. destruct t; cbn in H |- *.
    - apply IH in H. lia.
    - destruct (read_payload_like_tag attrs) as [[[k v]|]| |]; try discriminate; [|apply IH in H; lia].
      destruct (extract name v); apply IH in H; lia.
    - destruct (str_eqb name _); [injection H as <- <-; lia|apply IH in H; lia].
    - apply IH in H. lia.
    - apply IH in H. lia.
  Qed.
  Lemma read_global_shorter l : forall p o r, read_global p l = Fine (o, r) -> length r < length l.
  Proof.
    induction l as [|t l IH]; intros p o r H; [discriminate|]. destruct t; cbn in H |- *.
    - apply IH in H. lia.
    - destruct (read_payload_like_tag attrs) as [[[k v]|]| |]; try discriminate; [|apply IH in H; lia].
      apply IH in H. lia.
    - destruct (str_eqb name _); [injection H as <- <-; lia|apply IH in H; lia].
    - apply IH in H. lia.
    - injection H as <- <-. lia.
  Qed.
  Lemma read_trace_shorter f : forall g l es r, read_trace f g l = Fine (es, r) -> length r < length l.
  Proof.
    induction f as [|f IH]; intros g l es r H; [discriminate|]. destruct l as [|t l]; [discriminate|].
    destruct t; cbn in H |- *; try (apply IH in H; lia).
    - destruct (str_eqb name _); [|apply IH in H; lia].
      destruct (read_event (defaults g) l) as [[o r']| |] eqn:E; try discriminate. apply read_event_shorter in E.
      destruct (read_trace f g r') as [[es' r'']| |] eqn:E2; try discriminate. apply IH in E2. injection H as _ <-. lia.
    - destruct (str_eqb name _); [injection H as _ <-; lia|apply IH in H; lia].
    - injection H as _ <-. lia.
  Qed.
  Lemma read_trace_fuel f : forall f' g l, length l < f -> length l < f' -> read_trace f g l = read_trace f' g l.
  Proof.
    induction f as [|f IH]; intros f' g l H H'; [lia|]. destruct f' as [|f']; [lia|]. destruct l as [|t l]; [reflexivity|].
    cbn in H, H'. destruct t; cbn; try (apply IH; lia); try reflexivity.
    - destruct (str_eqb name _); [|apply IH; lia].
      destruct (read_event (defaults g) l) as [[o r']| |] eqn:E; try reflexivity. apply read_event_shorter in E.
      rewrite (IH f') by lia. reflexivity.
    - destruct (str_eqb name _); [reflexivity|apply IH; lia].
  Qed.
  Lemma read_items_fuel f : forall f' g l, length l < f -> length l < f' -> read_items f g l = read_items f' g l.
  Proof.
    induction f as [|f IH]; intros f' g l H H'; [lia|]. destruct f' as [|f']; [lia|]. destruct l as [|t l]; [reflexivity|].
    cbn in H, H'. destruct t; cbn [RXesModel.read_items]; try (apply IH; lia); try reflexivity.
    - destruct (str_eqb name (str "trace")).
      { destruct (read_trace (S (length l)) g l) as [[es r']| |] eqn:E; try reflexivity. apply read_trace_shorter in E.
        rewrite (IH f') by lia. reflexivity. }
      destruct (str_eqb name (str "global")).
      { destruct (last_attr (str "scope") attrs); [|apply IH; lia].
        destruct (read_global None l) as [[[v|] r']| |] eqn:E; try reflexivity; apply read_global_shorter in E.
        - destruct (dmem _ _ _); [apply IH; lia|]. rewrite (IH f') by lia. reflexivity.
        - apply IH; lia. }
      destruct (_ || _).
      + destruct (try_read_tag _ _ _ _ _ _) as [[i|]| |]; try reflexivity; [rewrite (IH f') by lia; reflexivity|apply IH; lia].
      + destruct (try_read_property _ _ _ _ _ _) as [[i|]| |]; try reflexivity; [rewrite (IH f') by lia; reflexivity|apply IH; lia].
    - destruct (try_read_tag _ _ _ _ _ _) as [[i|]| |]; try reflexivity; [rewrite (IH f') by lia; reflexivity|apply IH; lia].
  Qed.

  Definition trace_of g l := read_trace (S (length l)) g l.
  Definition items_of g l := read_items (S (length l)) g l.
  Lemma trace_fuel f g l : length l < f -> read_trace f g l = trace_of g l.
  Proof. intros H. apply read_trace_fuel; [assumption|]. lia. Qed.
  Lemma items_fuel f g l : length l < f -> read_items f g l = items_of g l.
  Proof. intros H. apply read_items_fuel; [assumption|]. lia. Qed.

  Lemma trace_start g a r : trace_of g (TStart (str "event") a :: r) =
    match read_event (defaults g) r with
    | Fine (o, r') =>
        match trace_of g r' with
        | Fine (es, r'') => Fine (match o with Some e => e :: es | None => es end, r'')
        | Panics => Panics
        | Hangs => Hangs
        end
    | Panics => Panics
    | Hangs => Hangs
    end.
  Proof.
    unfold trace_of at 1. assert (L : length r < length (TStart (str "event") a :: r)) by (cbn; lia). revert L. generalize (length (TStart (str "event") a :: r)). intros f L. cbn [RXesModel.read_trace]. change (str_eqb (str "event") (str "event")) with true. cbn iota.
    destruct (read_event (defaults g) r) as [[o r']| |] eqn:E; try reflexivity. apply read_event_shorter in E.
    rewrite trace_fuel by lia. reflexivity.
  Qed.
  Lemma items_start g a r : items_of g (TStart (str "trace") a :: r) =
    match trace_of g r with
    | Fine (es, r') => match items_of g r' with Fine is => Fine (ITrace es :: is) | Panics => Panics | Hangs => Hangs end
    | Panics => Panics
    | Hangs => Hangs
    end.
  Proof.
    unfold items_of at 1. assert (L : length r < length (TStart (str "trace") a :: r)) by (cbn; lia). revert L. generalize (length (TStart (str "trace") a :: r)). intros f L. cbn [RXesModel.read_items]. change (str_eqb (str "trace") (str "trace")) with true. cbn iota.
    change (read_trace (S (length r)) g r) with (trace_of g r).
    destruct (trace_of g r) as [[es r']| |] eqn:E; try reflexivity. apply read_trace_shorter in E.
    rewrite items_fuel by lia. reflexivity.
  Qed.
  Lemma items_global g a r : items_of g (TStart (str "global") a :: r) =
    match last_attr (str "scope") a with
    | None => items_of g r
    | Some scope =>
        match read_global None r with
        | Fine (None, r') => items_of g r'
        | Fine (Some values, r') =>
            if dmem str_eq_dec g scope then items_of g r'
            else match items_of (dset str_eq_dec g scope values) r' with
                 | Fine is => Fine (IGlobal scope values :: is)
                 | Panics => Panics
                 | Hangs => Hangs
                 end
        | Panics => Panics
        | Hangs => Hangs
        end
    end.
  Proof.
    unfold items_of at 1. assert (L : length r < length (TStart (str "global") a :: r)) by (cbn; lia). revert L. generalize (length (TStart (str "global") a :: r)). intros f L. cbn [RXesModel.read_items].
    change (str_eqb (str "global") (str "trace")) with false. change (str_eqb (str "global") (str "global")) with true. cbn iota.
    destruct (last_attr _ a) as [scope|]; [|apply items_fuel; lia].
    destruct (read_global None r) as [[[v|] r']| |] eqn:E; try reflexivity; apply read_global_shorter in E.
    - rewrite !items_fuel by lia. reflexivity.
    - apply items_fuel. lia.
  Qed.
  Lemma items_empty g n a r : items_of g (TEmpty n a :: r) =
    match try_read_tag f32 parse_date parse_f64 parse_uuid n a with
    | Fine (Some i) => match items_of g r with Fine is => Fine (i :: is) | Panics => Panics | Hangs => Hangs end
    | Fine None => items_of g r
    | Panics => Panics
    | Hangs => Hangs
    end.
  Proof.
    unfold items_of at 1. assert (L : length r < length (TEmpty n a :: r)) by (cbn; lia). revert L. generalize (length (TEmpty n a :: r)). intros f L.
    cbn [RXesModel.read_items]. rewrite !items_fuel by lia. reflexivity.
  Qed.

  (* values *)
  Definition reread (v : pval) : option pval := extract (pval_tag v) (pval_text show_date show_f32 show_f64 v).
  Lemma reread_becomes v : becomes v (reread v).
  Proof.
    unfold reread. destruct v; cbn [pval_tag pval_text].
    - apply becomes_date.
    - apply becomes_string.
    - destruct b; apply becomes_bool.
    - change (becomes (PInt32 z) (option_map PInt64 (parse_i64 (show_int z)))). rewrite parse_i64_show.
      destruct (_ && _)%bool eqn:E; [eapply becomes_int|eapply becomes_big]; [left; reflexivity|lia|left; reflexivity|lia].
    - change (becomes (PInt64 z) (option_map PInt64 (parse_i64 (show_int z)))). rewrite parse_i64_show.
      destruct (_ && _)%bool eqn:E; [eapply becomes_int|eapply becomes_big]; [right; left; reflexivity|lia|right; left; reflexivity|lia].
    - apply becomes_f32.
    - apply becomes_f64.
    - change (becomes (PUint32 z) (option_map PInt64 (parse_i64 (show_int z)))). rewrite parse_i64_show.
      destruct (_ && _)%bool eqn:E; [eapply becomes_int|eapply becomes_big]; [right; right; left; reflexivity|lia|right; right; left; reflexivity|lia].
    - change (becomes (PUint64 z) (option_map PInt64 (parse_i64 (show_int z)))). rewrite parse_i64_show.
      destruct (_ && _)%bool eqn:E; [eapply becomes_int|eapply becomes_big]; [right; right; right; reflexivity|lia|right; right; right; reflexivity|lia].
    - apply becomes_guid.
    - apply becomes_timestamp.
    - apply becomes_lifecycle.
  Qed.
  Lemma becomes_fun v a b : becomes v a -> becomes v b -> a = b.
  Proof.
    intros HA HB; destruct HA; inversion HB; subst; try reflexivity;
      repeat match goal with X : _ \/ _ |- _ => destruct X end; try discriminate; try congruence;
      subst; repeat match goal with X : ?a = ?b |- _ => first [discriminate X | injection X as X] end; subst; try reflexivity; try contradiction.
  Qed.
  Lemma becomes_reread v o : becomes v o -> o = reread v.
  Proof. intros H. eapply becomes_fun; [exact H|apply reread_becomes]. Qed.

  Lemma payload_tag kv : exists n attrs, write_payload_tag kv = TEmpty n attrs /\
    read_payload_like_tag attrs = Fine (Some (fst kv, pval_text show_date show_f32 show_f64 (snd kv))) /\
    n = pval_tag (snd kv).
  Proof.
    eexists _, _. split; [reflexivity|]. split; [|reflexivity]. destruct kv as [k v].
    unfold read_payload_like_tag. cbn [map fst snd last_attr fold_left].
    change (str_eqb (str "key") (str "key")) with true. change (str_eqb (str "value") (str "key")) with false.
    change (str_eqb (str "key") (str "value")) with false. change (str_eqb (str "value") (str "value")) with true.
    cbn iota. rewrite !unescape_escape. reflexivity.
  Qed.

  Definition put (p : partial date f32 f64) (kv : pystr * pval) : partial date f32 f64 :=
    match reread (snd kv) with Some v => update_event_data (fst kv) v p | None => p end.
  Definition closing (p : partial date f32 f64) : option xevent :=
    match p_name p, p_date p with Some n, Some d => Some (mkXEvent n d (p_payload p)) | _, _ => None end.

  Lemma read_event_tag p kv r : read_event p (write_payload_tag kv :: r) = read_event (put p kv) r.
  Proof.
    destruct (payload_tag kv) as (n & attrs & E & R & N). rewrite E. cbn [RXesModel.read_event]. rewrite R, N.
    unfold put, reread. destruct (extract _ _); reflexivity.
  Qed.
  Lemma read_event_tags kvs : forall p r,
    read_event p (map write_payload_tag kvs ++ TEnd (str "event") :: r) = Fine (closing (fold_left put kvs p), r).
  Proof.
    induction kvs as [|kv kvs IH]; intros p r; [reflexivity|]. cbn [map app fold_left]. rewrite read_event_tag. apply IH.
  Qed.

  Lemma read_written_event p e r :
    read_event p (tl (write_event e) ++ r) =
    Fine (closing (fold_left put ((str "concept:name", PString (x_name e)) :: (str "time:timestamp", PDate (x_time e)) :: sort_by_first (x_payload e)) p), r).
  Proof.
    rewrite <- read_event_tags. cbn [RXesModel.write_event tl map]. cbn [app]. rewrite <- app_assoc. reflexivity.
  Qed.

  Lemma trace_events g es : forall r,
    trace_of g (flat_map write_event es ++ TEnd (str "trace") :: r) =
    Fine (flat_map (fun e => match closing (fold_left put ((str "concept:name", PString (x_name e)) :: (str "time:timestamp", PDate (x_time e)) :: sort_by_first (x_payload e)) (defaults g)) with Some e' => [e'] | None => [] end) es, r).
  Proof.
    induction es as [|e es IH]; intros r; [reflexivity|]. cbn [flat_map]. rewrite <- app_assoc.
    set (rest := flat_map write_event es ++ TEnd (str "trace") :: r).
    change (write_event e ++ rest) with (TStart (str "event") [] :: tl (write_event e) ++ rest).
    rewrite trace_start, read_written_event. unfold rest. rewrite IH.
    destruct (closing _); reflexivity.
  Qed.

  Definition gput (m : dict pystr pval) (kv : pystr * pval) : dict pystr pval :=
    match reread (snd kv) with Some v => dset str_eq_dec m (fst kv) v | None => m end.
  Lemma read_global_tags kvs : forall m r,
    read_global (Some m) (map write_payload_tag kvs ++ TEnd (str "global") :: r) = Fine (Some (fold_left gput kvs m), r).
  Proof.
    induction kvs as [|kv kvs IH]; intros m r; [reflexivity|]. cbn [map app fold_left].
    destruct (payload_tag kv) as (n & attrs & E & R & N). rewrite E. cbn [RXesModel.read_global]. rewrite R, N.
    rewrite IH. change (gput m kv) with (match extract (pval_tag (snd kv)) (pval_text show_date show_f32 show_f64 (snd kv)) with Some v => dset str_eq_dec m (fst kv) v | None => m end).
    destruct (extract _ _); reflexivity.
  Qed.
  Lemma read_global_written kvs r :
    read_global None (map write_payload_tag kvs ++ TEnd (str "global") :: r) =
    Fine (match kvs with [] => None | _ => Some (fold_left gput kvs []) end, r).
  Proof.
    destruct kvs as [|kv kvs]; [reflexivity|]. cbn [map app fold_left].
    destruct (payload_tag kv) as (n & attrs & E & R & N). rewrite E. cbn [RXesModel.read_global]. rewrite R, N.
    rewrite read_global_tags. change (gput [] kv) with (match extract (pval_tag (snd kv)) (pval_text show_date show_f32 show_f64 (snd kv)) with Some v => dset str_eq_dec [] (fst kv) v | None => [] end).
    destruct (extract _ _); reflexivity.
  Qed.

  (* items *)
  Definition prepend (is : list (item date f32 f64)) (o : outcome (list (item date f32 f64))) : outcome (list (item date f32 f64)) :=
    match o with Fine is' => Fine (is ++ is') | Panics => Panics | Hangs => Hangs end.
  Lemma prepend_nil o : prepend [] o = o. Proof. destruct o; reflexivity. Qed.
  Lemma prepend_app a b o : prepend a (prepend b o) = prepend (a ++ b) o.
  Proof. destruct o; cbn; rewrite ?app_assoc; reflexivity. Qed.

  Definition raw_ext (x : xext) : xext := mkXExt (escape (xe_name x)) (escape (xe_prefix x)) (escape (xe_uri x)).
  Definition raw_cls (c : xcls) : xcls := mkXCls (escape (xc_name c)) (split_go (str " ") (escape (join_space (xc_keys c))) 0 []).

  Lemma items_exts g xs : forall r, items_of g (map write_extension xs ++ r) = prepend (map (fun x => IExtension (raw_ext x)) xs) (items_of g r).
  Proof.
    induction xs as [|x xs IH]; intros r; [symmetry; apply prepend_nil|].
    transitivity (prepend [IExtension (raw_ext x)] (items_of g (map write_extension xs ++ r))).
    - cbn [map app]. unfold write_extension at 1, write_empty. rewrite items_empty. cbn [map fst snd].
      unfold try_read_tag. change (str_eqb (str "extension") (str "extension")) with true. cbn iota.
      match goal with |- context [try_read_extension ?a] => change (try_read_extension a) with (Some (raw_ext x)) end.
      cbn [option_map]. destruct (items_of _ _); reflexivity.
    - rewrite IH, prepend_app. reflexivity.
  Qed.
  Lemma items_classes g xs : forall r, items_of g (map write_classifier xs ++ r) = prepend (map (fun x => IClassifier (raw_cls x)) xs) (items_of g r).
  Proof.
    induction xs as [|x xs IH]; intros r; [symmetry; apply prepend_nil|].
    transitivity (prepend [IClassifier (raw_cls x)] (items_of g (map write_classifier xs ++ r))).
    - cbn [map app]. unfold write_classifier at 1, write_empty. rewrite items_empty. cbn [map fst snd].
      unfold try_read_tag. change (str_eqb (str "classifier") (str "extension")) with false.
      change (str_eqb (str "classifier") (str "classifier")) with true. cbn iota.
      match goal with |- context [try_read_classifier ?a] => change (try_read_classifier a) with (Some (raw_cls x)) end.
      cbn [option_map]. destruct (items_of _ _); reflexivity.
    - rewrite IH, prepend_app. reflexivity.
  Qed.
  Definition prop_item (kv : pystr * pval) : list (item date f32 f64) :=
    match reread (snd kv) with Some v => [IProperty (fst kv) v] | None => [] end.
  Lemma pval_tag_plain (v : pval) : str_eqb (pval_tag v) (str "extension") = false /\ str_eqb (pval_tag v) (str "classifier") = false.
  Proof. destruct v; split; reflexivity. Qed.
  Lemma items_props g xs : forall r, items_of g (map write_payload_tag xs ++ r) = prepend (flat_map prop_item xs) (items_of g r).
  Proof.
    induction xs as [|x xs IH]; intros r; [symmetry; apply prepend_nil|].
    transitivity (prepend (prop_item x) (items_of g (map write_payload_tag xs ++ r))).
    - cbn [map app].
      destruct (payload_tag x) as (n & attrs & E & R & N). rewrite E. rewrite items_empty.
      unfold try_read_tag. destruct (pval_tag_plain (snd x)) as [A B]. rewrite N, A, B. unfold try_read_property. rewrite R.
      unfold prop_item, reread. destruct (extract _ _); cbn [option_map]; destruct (items_of _ _); reflexivity.
    - rewrite IH, prepend_app. reflexivity.
  Qed.
  Lemma items_traces g ts : forall r, items_of g (flat_map write_trace ts ++ r) =
    prepend (map (fun es => ITrace (flat_map (fun e => match closing (fold_left put ((str "concept:name", PString (x_name e)) :: (str "time:timestamp", PDate (x_time e)) :: sort_by_first (x_payload e)) (defaults g)) with Some e' => [e'] | None => [] end) es))
      (filter (fun es => match es with [] => false | _ => true end) ts)) (items_of g r).
  Proof.
    induction ts as [|es ts IH]; intros r; [symmetry; apply prepend_nil|]. cbn [flat_map].
    destruct es as [|e es]; [exact (IH r)|]. cbn [filter map]. rewrite <- app_assoc.
    set (rest := flat_map write_trace ts ++ r).
    change (write_trace (e :: es) ++ rest) with (TStart (str "trace") [] :: (flat_map write_event (e :: es) ++ [TEnd (str "trace")]) ++ rest).
    rewrite <- app_assoc. rewrite items_start. cbn [app]. rewrite trace_events. unfold rest. rewrite IH.
    destruct (items_of g r); reflexivity.
  Qed.

  (* globals *)
  Definition global_items (gs : list (pystr * list (pystr * pval))) : list (pystr * dict pystr pval) :=
    flat_map (fun sc => match snd sc with [] => [] | kvs => [(escape (fst sc), fold_left gput kvs [])] end) gs.
  Lemma items_globals gs : forall g r, NoDup (map fst gs) -> (forall s, In s (map fst gs) -> ~ In (escape s) (dkeys g)) ->
    items_of g (flat_map write_global gs ++ r) =
    prepend (map (fun sd => IGlobal (fst sd) (snd sd)) (global_items gs))
      (items_of (fold_left (fun m sd => dset str_eq_dec m (fst sd) (snd sd)) (global_items gs) g) r).
  Proof.
    induction gs as [|[s kvs] gs IH]; intros g r ND F; [symmetry; apply prepend_nil|]. cbn [flat_map]. rewrite <- app_assoc.
    inversion ND as [|? ? Hs ND']; subst. set (rest := flat_map write_global gs ++ r).
    change (write_global (s, kvs) ++ rest) with (TStart (str "global") [Some (str "scope", escape s)] :: (map write_payload_tag kvs ++ [TEnd (str "global")]) ++ rest).
    rewrite <- app_assoc. rewrite items_global. cbn [app].
    match goal with |- context [last_attr (str "scope") ?a] => change (last_attr (str "scope") a) with (Some (escape s)) end. cbn iota.
    rewrite read_global_written.
    destruct kvs as [|kv kvs].
    - unfold rest.
      rewrite IH; [reflexivity|assumption|]. intros s' H. apply F. right. assumption.
    - assert (M : dmem str_eq_dec g (escape s) = false).
      { destruct (dmem str_eq_dec g (escape s)) eqn:E; [|reflexivity]. apply dmem_In in E. exfalso. eapply F; [left; reflexivity|exact E]. }
      rewrite M. unfold rest.
      rewrite IH; [|assumption|].
      + cbn [global_items flat_map snd fst app map fold_left]. destruct (items_of _ r); reflexivity.
      + intros s' H A. apply dset_In_keys in A. destruct A as [A|A].
        * apply escape_inj in A. subst. contradiction.
        * eapply F; [right; exact H|exact A].
  Qed.

  (* what the lists of values become *)
  Definition rereads (kvs : list (pystr * pval)) : list (pystr * pval) :=
    flat_map (fun kv => match reread (snd kv) with Some v => [(fst kv, v)] | None => [] end) kvs.
  Lemma put_rereads kvs : forall p, fold_left put kvs p = fold_left (fun p kv => update_event_data (fst kv) (snd kv) p) (rereads kvs) p.
  Proof.
    induction kvs as [|kv kvs IH]; intros p; [reflexivity|]. cbn [fold_left rereads flat_map]. rewrite fold_left_app, <- IH.
    unfold put at 2. destruct (reread (snd kv)); reflexivity.
  Qed.
  Lemma gput_rereads kvs : forall m, fold_left gput kvs m = fold_left (fun m kv => dset str_eq_dec m (fst kv) (snd kv)) (rereads kvs) m.
  Proof.
    induction kvs as [|kv kvs IH]; intros p; [reflexivity|]. cbn [fold_left rereads flat_map]. rewrite fold_left_app, <- IH.
    unfold gput at 2. destruct (reread (snd kv)); reflexivity.
  Qed.
  Lemma rereads_keys kvs k : In k (dkeys (rereads kvs)) -> In k (dkeys kvs).
  Proof.
    induction kvs as [|kv kvs IH]; [intros []|]. cbn [rereads flat_map]. unfold dkeys in *. rewrite map_app, in_app_iff.
    intros [H|H]; [|right; apply IH; assumption]. destruct (reread (snd kv)); [|destruct H]. destruct H as [H|[]]. left. assumption.
  Qed.
  Lemma rereads_NoDup kvs : NoDup (dkeys kvs) -> NoDup (dkeys (rereads kvs)).
  Proof.
    induction kvs as [|kv kvs IH]; intros H; [constructor|]. inversion H as [|? ? H1 H2]; subst. cbn [rereads flat_map].
    destruct (reread (snd kv)); [|apply IH; assumption]. cbn. constructor; [|apply IH; assumption].
    intros A. apply H1. apply rereads_keys. assumption.
  Qed.
  Lemma dget_rereads kvs k : NoDup (dkeys kvs) ->
    dget str_eq_dec (rereads kvs) k = match dget str_eq_dec kvs k with Some v => reread v | None => None end.
  Proof.
    induction kvs as [|[a v] kvs IH]; intros H; [reflexivity|]. inversion H as [|? ? H1 H2]; subst. cbn [rereads flat_map fst snd].
    cbn [dget]. destruct (str_eq_dec k a) as [->|N].
    - destruct (reread v) eqn:E; cbn [app dget].
      + destruct (str_eq_dec a a); [reflexivity|contradiction].
      + apply dget_None. intros A. apply H1. apply rereads_keys. assumption.
    - destruct (reread v); cbn [app dget]; [destruct (str_eq_dec k a); [contradiction|]|]; apply IH; assumption.
  Qed.
  Lemma dget_fold_dset {V} (l : list (pystr * V)) k : NoDup (map fst l) -> forall m,
    dget str_eq_dec (fold_left (fun m kv => dset str_eq_dec m (fst kv) (snd kv)) l m) k =
    match dget str_eq_dec l k with Some v => Some v | None => dget str_eq_dec m k end.
  Proof.
    induction l as [|[a v] l IH]; intros H m; [reflexivity|]. inversion H as [|? ? H1 H2]; subst. cbn [fold_left fst snd dget].
    rewrite IH by assumption. destruct (str_eq_dec k a) as [->|N].
    - assert (dget str_eq_dec l a = None) as -> by (apply dget_None; assumption). apply dget_dset_same.
    - destruct (dget str_eq_dec l k); [reflexivity|]. apply dget_dset_other. congruence.
  Qed.
  Lemma fold_dset_NoDup {V} (l : list (pystr * V)) : forall m, NoDup (dkeys m) ->
    NoDup (dkeys (fold_left (fun m kv => dset str_eq_dec m (fst kv) (snd kv)) l m)).
  Proof. induction l as [|kv l IH]; intros m H; [assumption|]. apply IH. apply dset_NoDup. assumption. Qed.
  Lemma fold_dset_keys {V} (l : list (pystr * V)) k : forall m,
    In k (dkeys (fold_left (fun m kv => dset str_eq_dec m (fst kv) (snd kv)) l m)) -> In k (map fst l) \/ In k (dkeys m).
  Proof.
    induction l as [|kv l IH]; intros m H; [right; assumption|]. apply IH in H. destruct H as [H|H]; [left; right; assumption|].
    apply dset_In_keys in H. destruct H as [->|H]; [left; left; reflexivity|right; assumption].
  Qed.

  Notation upd := (fun p kv => update_event_data (fst kv) (snd kv) p).
  Lemma upd_name (l : list (pystr * pval)) : NoDup (map fst l) -> forall p,
    p_name (fold_left upd l p) = match dget str_eq_dec l (str "concept:name") with Some (PString s) => Some s | _ => p_name p end.
  Proof.
    induction l as [|[a v] l IH]; intros H p; [reflexivity|]. inversion H as [|? ? H1 H2]; subst. cbn [fold_left fst snd dget].
    rewrite IH by assumption. unfold update_event_data. destruct (str_eq_dec (str "concept:name") a) as [<-|N].
    - assert (dget str_eq_dec l (str "concept:name") = None) as -> by (apply dget_None; assumption).
      change (str_eqb (str "concept:name") (str "time:timestamp")) with false.
      change (str_eqb (str "concept:name") (str "concept:name")) with true. cbn iota. destruct v; reflexivity.
    - assert (p_name (if str_eqb a (str "time:timestamp") then match v with PDate d => mkPartial (p_name p) (Some d) (p_payload p) | _ => p end
        else if str_eqb a (str "concept:name") then match v with PString s => mkPartial (Some s) (p_date p) (p_payload p) | _ => p end
        else mkPartial (p_name p) (p_date p) (dset str_eq_dec (p_payload p) a v)) = p_name p) as ->; [|reflexivity].
      destruct (str_eqb a (str "time:timestamp")); [destruct v; reflexivity|].
      assert (str_eqb a (str "concept:name") = false) as -> by (apply str_eqb_neq; congruence). reflexivity.
  Qed.
  Lemma upd_date (l : list (pystr * pval)) : NoDup (map fst l) -> forall p,
    p_date (fold_left upd l p) = match dget str_eq_dec l (str "time:timestamp") with Some (PDate s) => Some s | _ => p_date p end.
  Proof.
    induction l as [|[a v] l IH]; intros H p; [reflexivity|]. inversion H as [|? ? H1 H2]; subst. cbn [fold_left fst snd dget].
    rewrite IH by assumption. unfold update_event_data. destruct (str_eq_dec (str "time:timestamp") a) as [<-|N].
    - assert (dget str_eq_dec l (str "time:timestamp") = None) as -> by (apply dget_None; assumption).
      change (str_eqb (str "time:timestamp") (str "time:timestamp")) with true. cbn iota. destruct v; reflexivity.
    - assert (str_eqb a (str "time:timestamp") = false) as -> by (apply str_eqb_neq; congruence).
      destruct (str_eqb a (str "concept:name")); [|reflexivity]. destruct v; reflexivity.
  Qed.
  Lemma upd_payload (l : list (pystr * pval)) k : k <> str "concept:name" -> k <> str "time:timestamp" -> NoDup (map fst l) -> forall p,
    dget str_eq_dec (p_payload (fold_left upd l p)) k = match dget str_eq_dec l k with Some v => Some v | None => dget str_eq_dec (p_payload p) k end.
  Proof.
    intros K1 K2. induction l as [|[a v] l IH]; intros H p; [reflexivity|]. inversion H as [|? ? H1 H2]; subst. cbn [fold_left fst snd dget].
    rewrite IH by assumption. unfold update_event_data. destruct (str_eq_dec k a) as [<-|N].
    - assert (dget str_eq_dec l k = None) as -> by (apply dget_None; assumption).
      assert (str_eqb k (str "time:timestamp") = false) as -> by (apply str_eqb_neq; assumption).
      assert (str_eqb k (str "concept:name") = false) as -> by (apply str_eqb_neq; assumption). apply dget_dset_same.
    - destruct (dget str_eq_dec l k); [reflexivity|]. destruct (str_eqb a (str "time:timestamp")); [destruct v; reflexivity|].
      destruct (str_eqb a (str "concept:name")); [destruct v; reflexivity|]. apply dget_dset_other. congruence.
  Qed.

  Lemma upd_special (l : list (pystr * pval)) k : k = str "concept:name" \/ k = str "time:timestamp" -> forall p,
    ~ In k (dkeys (p_payload p)) -> ~ In k (dkeys (p_payload (fold_left upd l p))).
  Proof.
    intros K. induction l as [|[a v] l IH]; intros p H; [assumption|]. cbn [fold_left fst snd]. apply IH. unfold update_event_data.
    destruct (str_eqb a (str "time:timestamp")) eqn:E1; [destruct v; assumption|].
    destruct (str_eqb a (str "concept:name")) eqn:E2; [destruct v; assumption|]. cbn [p_payload]. intros A. apply dset_In_keys in A.
    destruct A as [A|A]; [|contradiction]. subst a. apply str_eqb_neq in E1, E2. destruct K; contradiction.
  Qed.

  (* the globals that are read *)
  Definition read_globals (g : dict pystr (dict pystr pval)) : dict pystr (dict pystr pval) :=
    fold_left (fun m sd => dset str_eq_dec m (fst sd) (snd sd)) (global_items (ordered_globals g)) [].

  Lemma map_fst_pair {V W} (f : V -> W) (l : list (pystr * V)) : map fst (map (fun sc => (fst sc, f (snd sc))) l) = map fst l.
  Proof. rewrite map_map. reflexivity. Qed.
  Lemma ordered_keys (g : dict pystr (dict pystr pval)) : Permutation (dkeys g) (map fst (ordered_globals g)).
  Proof. unfold ordered_globals. eapply perm_trans; [|apply keys_sort]. unfold dkeys. rewrite map_fst_pair. apply Permutation_refl. Qed.
  Lemma ordered_get (g : dict pystr (dict pystr pval)) s : dget str_eq_dec (ordered_globals g) s = option_map sort_by_first (dget str_eq_dec g s).
  Proof.
    unfold ordered_globals. rewrite dget_sort. induction g as [|[a d] g IH]; [reflexivity|]. cbn. destruct (str_eq_dec s a); [reflexivity|]. exact IH.
  Qed.
  Lemma global_items_keys gs t : In t (map fst (global_items gs)) -> exists s, t = escape s /\ In s (map fst gs).
  Proof.
    induction gs as [|[s kvs] gs IH]; [intros []|]. cbn [global_items flat_map snd fst]. destruct kvs as [|kv kvs].
    - intros H. destruct (IH H) as (s' & A & B). exists s'. split; [assumption|right; assumption].
    - cbn [app map]. intros [<-|H]; [exists s; split; [reflexivity|left; reflexivity]|].
      destruct (IH H) as (s' & A & B). exists s'. split; [assumption|right; assumption].
  Qed.
  Lemma global_items_NoDup gs : NoDup (map fst gs) -> NoDup (map fst (global_items gs)).
  Proof.
    induction gs as [|[s kvs] gs IH]; intros H; [constructor|]. inversion H as [|? ? H1 H2]; subst. cbn [global_items flat_map snd fst].
    destruct kvs; [apply IH; assumption|]. cbn [app map]. constructor; [|apply IH; assumption].
    intros A. apply global_items_keys in A. destruct A as (s' & A & B). apply escape_inj in A. subst. contradiction.
  Qed.
  Lemma global_items_get gs s : NoDup (map fst gs) -> dget str_eq_dec (global_items gs) (escape s) =
    match dget str_eq_dec gs s with Some (kv :: kvs) => Some (fold_left gput (kv :: kvs) []) | _ => None end.
  Proof.
    induction gs as [|[a kvs] gs IH]; intros H; [reflexivity|]. inversion H as [|? ? H1 H2]; subst. cbn [global_items flat_map snd fst dget].
    destruct (str_eq_dec s a) as [->|N].
    - destruct kvs as [|kv kvs].
      + cbn [app]. apply dget_None. intros A. apply global_items_keys in A. destruct A as (s' & A & B). apply escape_inj in A. subst. contradiction.
      + cbn [app dget]. destruct (str_eq_dec (escape a) (escape a)); [reflexivity|contradiction].
    - destruct kvs as [|kv kvs]; [apply IH; assumption|]. cbn [app dget].
      destruct (str_eq_dec (escape s) (escape a)) as [A|_]; [apply escape_inj in A; contradiction|]. apply IH. assumption.
  Qed.
  Lemma sort_nil {A} (l : list (pystr * A)) : sort_by_first l = [] -> l = [].
  Proof. intros H. pose proof (sort_perm l) as P. rewrite H in P. apply Permutation_sym, Permutation_nil in P. assumption. Qed.
  Lemma read_globals_get g s : NoDup (dkeys g) -> dget str_eq_dec (read_globals g) (escape s) =
    match dget str_eq_dec g s with Some (kv :: d) => Some (fold_left gput (sort_by_first (kv :: d)) []) | _ => None end.
  Proof.
    intros H. assert (ND : NoDup (map fst (ordered_globals g))) by (eapply Permutation_NoDup; [apply ordered_keys|assumption]).
    unfold read_globals. rewrite dget_fold_dset by (apply global_items_NoDup; assumption).
    rewrite global_items_get by assumption. rewrite ordered_get.
    destruct (dget str_eq_dec g s) as [[|kv d]|]; [reflexivity| |reflexivity]. cbn [option_map].
    destruct (sort_by_first (kv :: d)) eqn:E; [apply sort_nil in E; discriminate|]. reflexivity.
  Qed.
  Lemma read_globals_keys g t : In t (dkeys (read_globals g)) -> exists s, t = escape s /\ In s (dkeys g).
  Proof.
    intros H. apply fold_dset_keys in H. destruct H as [H|[]]. apply global_items_keys in H. destruct H as (s & A & B).
    exists s. split; [assumption|]. eapply Permutation_in; [apply Permutation_sym, ordered_keys|assumption].
  Qed.
  Lemma gput_get d k : NoDup (dkeys d) -> at_key d k (dget str_eq_dec (fold_left gput (sort_by_first d) []) k).
  Proof.
    intros H. assert (ND : NoDup (dkeys (sort_by_first d))) by (eapply Permutation_NoDup; [apply keys_sort|assumption]).
    rewrite gput_rereads, dget_fold_dset by (apply rereads_NoDup; assumption). rewrite dget_rereads by assumption. rewrite dget_sort.
    unfold RXesSpec.at_key. destruct (dget str_eq_dec d k) as [v|]; [|reflexivity].
    destruct (reread v) eqn:E; [|cbn]; rewrite <- E; apply reread_becomes.
  Qed.

  (* defaults *)
  Definition default_value (log : xlog) (k : pystr) : option pval :=
    match dget str_eq_dec (x_globals log) (str "event") with
    | Some d => match dget str_eq_dec d k with Some v => reread v | None => None end
    | None => None
    end.
  Lemma default_value_spec log k : default_at log k (default_value log k).
  Proof.
    unfold RXesSpec.default_at, default_value, RXesSpec.at_key. destruct (dget _ _ (str "event")) as [d|]; [|reflexivity].
    destruct (dget _ d k); [apply reread_becomes|reflexivity].
  Qed.
  Lemma at_key_fun d k a b : at_key d k a -> at_key d k b -> a = b.
  Proof. unfold RXesSpec.at_key. destruct (dget _ d k); [apply becomes_fun|congruence]. Qed.

  Section Log.
    Variable log : xlog.
    Hypothesis S : sound date f32 f64 log.
    Let D := defaults (read_globals (x_globals log)).
    Lemma D_event : exists l, D = fold_left upd l (mkPartial None None []) /\ NoDup (map fst l) /\ forall k, dget str_eq_dec l k = default_value log k.
    Proof.
      unfold D, defaults, default_value. pose proof (read_globals_get (x_globals log) (str "event") (s_globals _ _ _ _ S)) as G.
      change (escape (str "event")) with (str "event") in G. rewrite G.
      destruct (dget str_eq_dec (x_globals log) (str "event")) as [[|kv d]|] eqn:E; try (exists []; split; [reflexivity|split; [constructor|reflexivity]]).
      eexists. split; [reflexivity|].
      assert (ND : NoDup (dkeys (kv :: d))) by (eapply (s_values _ _ _ _ S); apply dget_In with (eqd := str_eq_dec); exact E).
      split; [rewrite gput_rereads; apply fold_dset_NoDup; constructor|]. intros k.
      eapply at_key_fun; [apply gput_get; exact ND|]. unfold RXesSpec.at_key. destruct (dget _ (kv :: d) k); [apply reread_becomes|reflexivity].
    Qed.

    Definition read_back (e : xevent) : option xevent :=
      closing (fold_left put ((str "concept:name", PString (x_name e)) :: (str "time:timestamp", PDate (x_time e)) :: sort_by_first (x_payload e)) D).

    Lemma read_back_spec e : NoDup (dkeys (x_payload e)) -> ~ In (str "concept:name") (dkeys (x_payload e)) -> ~ In (str "time:timestamp") (dkeys (x_payload e)) ->
      match read_back e with Some e' => comes_back log e e' | None => stamp log e None end.
    Proof.
      intros H1 H2 H3. unfold read_back. rewrite put_rereads.
      set (L := (str "concept:name", PString (x_name e)) :: (str "time:timestamp", PDate (x_time e)) :: sort_by_first (x_payload e)).
      assert (ND : NoDup (dkeys L)).
      { unfold L. cbn. constructor.
        - cbn. intros [A|A]; [discriminate|]. apply H2. eapply Permutation_in; [apply Permutation_sym, keys_sort|exact A].
        - constructor; [|eapply Permutation_NoDup; [apply keys_sort|assumption]].
          intros A. apply H3. eapply Permutation_in; [apply Permutation_sym, keys_sort|exact A]. }
      pose proof (rereads_NoDup L ND) as NR.
      destruct D_event as (l & EL & NL & GL).
      pose proof (upd_name _ NR D) as PN. pose proof (upd_date _ NR D) as PD. pose proof (fun k A B => upd_payload _ k A B NR D) as PP.
      set (P := fold_left upd (rereads L) D) in *.
      rewrite dget_rereads in PN, PD by assumption.
      change (dget str_eq_dec L (str "concept:name")) with (@Some pval (PString (x_name e))) in PN.
      change (dget str_eq_dec L (str "time:timestamp")) with (@Some pval (PDate (x_time e))) in PD.
      assert (R1 : reread (PString (x_name e)) = Some (PString (x_name e))) by reflexivity.
      assert (R2 : reread (PDate (x_time e)) = option_map PDate (parse_date (show_date (x_time e)))) by reflexivity.
      cbn iota in PN, PD. rewrite R1 in PN. rewrite R2 in PD.
      cbn iota in PN, PD.
      assert (ST : stamp log e (p_date P)).
      { unfold RXesSpec.stamp. rewrite PD. destruct (parse_date (show_date (x_time e))); [reflexivity|]. cbn [option_map].
        exists (default_value log (str "time:timestamp")). split; [apply default_value_spec|].
        rewrite EL, upd_date by assumption. rewrite GL. reflexivity. }
      unfold closing. rewrite PN. destruct (p_date P) as [d|] eqn:ED; [|exact ST].
      split; [reflexivity|]. split; [exact ST|].
      assert (SP : forall k, k = str "concept:name" \/ k = str "time:timestamp" -> ~ In k (dkeys (p_payload P))).
      { intros k K. apply upd_special; [assumption|]. rewrite EL. apply upd_special; [assumption|]. intros []. }
      split; [apply SP; left; reflexivity|]. split; [apply SP; right; reflexivity|]. intros k K1 K2. cbn [x_payload].
      exists (match dget str_eq_dec (x_payload e) k with Some v => reread v | None => None end), (default_value log k).
      split; [unfold RXesSpec.at_key; destruct (dget _ (x_payload e) k); [apply reread_becomes|reflexivity]|].
      split; [apply default_value_spec|]. rewrite PP by assumption. rewrite dget_rereads by assumption.
      assert (dget str_eq_dec L k = dget str_eq_dec (x_payload e) k) as ->.
      { unfold L. cbn [dget]. destruct (str_eq_dec k (str "concept:name")); [contradiction|]. destruct (str_eq_dec k (str "time:timestamp")); [contradiction|]. apply dget_sort. }
      rewrite EL, upd_payload by assumption. rewrite GL.
      destruct (dget str_eq_dec (x_payload e) k) as [v|]; [destruct (reread v)|]; destruct (default_value log k); reflexivity.
    Qed.

    Definition read_again : xlog :=
      mkXLog (map (flat_map (fun e => match read_back e with Some e' => [e'] | None => [] end)) (filter (fun es => match es with [] => false | _ => true end) (x_traces log)))
        (read_globals (x_globals log)) (map raw_ext (x_exts log)) (map raw_cls (x_classifiers log)) (rereads (sort_by_first (x_props log))).

    Lemma fold_exts xs : forall l : xlog, fold_left add_item (map (fun x => IExtension (raw_ext x)) xs) l =
      mkXLog (x_traces l) (x_globals l) (x_exts l ++ map raw_ext xs) (x_classifiers l) (x_props l).
    Proof. induction xs as [|x xs IH]; intros l; [rewrite app_nil_r; destruct l; reflexivity|]. cbn [map fold_left]. rewrite IH. cbn. rewrite <- app_assoc. reflexivity. Qed.
    Lemma fold_cls xs : forall l : xlog, fold_left add_item (map (fun x => IClassifier (raw_cls x)) xs) l =
      mkXLog (x_traces l) (x_globals l) (x_exts l) (x_classifiers l ++ map raw_cls xs) (x_props l).
    Proof. induction xs as [|x xs IH]; intros l; [rewrite app_nil_r; destruct l; reflexivity|]. cbn [map fold_left]. rewrite IH. cbn. rewrite <- app_assoc. reflexivity. Qed.
    Lemma fold_props xs : forall l : xlog, fold_left add_item (flat_map prop_item xs) l =
      mkXLog (x_traces l) (x_globals l) (x_exts l) (x_classifiers l) (x_props l ++ rereads xs).
    Proof.
      induction xs as [|x xs IH]; intros l; [rewrite app_nil_r; destruct l; reflexivity|]. cbn [flat_map]. rewrite fold_left_app, IH.
      cbn [rereads flat_map]. unfold prop_item. destruct (reread (snd x)); [cbn; rewrite <- app_assoc|cbn]; reflexivity.
    Qed.
    Lemma fold_globals xs : forall l : xlog, fold_left add_item (map (fun sd => IGlobal (fst sd) (snd sd)) xs) l =
      mkXLog (x_traces l) (fold_left (fun m sd => dset str_eq_dec m (fst sd) (snd sd)) xs (x_globals l)) (x_exts l) (x_classifiers l) (x_props l).
    Proof. induction xs as [|x xs IH]; intros l; [destruct l; reflexivity|]. cbn [map fold_left]. rewrite IH. reflexivity. Qed.
    Lemma fold_traces (f : list xevent -> list xevent) xs : forall l : xlog, fold_left add_item (map (fun es => ITrace (f es)) xs) l =
      mkXLog (x_traces l ++ map f xs) (x_globals l) (x_exts l) (x_classifiers l) (x_props l).
    Proof. induction xs as [|x xs IH]; intros l; [rewrite app_nil_r; destruct l; reflexivity|]. cbn [map fold_left]. rewrite IH. cbn. rewrite <- app_assoc. reflexivity. Qed.

    Lemma items_log g r : items_of g (TStart (str "log") [] :: r) = items_of g r.
    Proof.
      unfold items_of at 1. assert (L : length r < length (TStart (str "log") [] :: r)) by (cbn; lia). revert L.
      generalize (length (TStart (str "log") [] :: r)). intros f L. transitivity (read_items f g r); [reflexivity|apply items_fuel; assumption].
    Qed.

    Lemma read_written : read_log (write_log log) = Fine read_again.
    Proof.
      unfold RXesModel.read_log. change (read_items (Datatypes.S (length (write_log log))) [] (write_log log)) with (items_of [] (write_log log)).
      unfold RXesModel.write_log. rewrite items_log, items_exts, items_classes, items_props, items_globals.
      2: { eapply Permutation_NoDup; [apply ordered_keys|apply (s_globals _ _ _ _ S)]. }
      2: { intros s _ []. }
      rewrite items_traces. match goal with |- context [items_of ?g [TEnd (str "log")]] => change (items_of g [TEnd (str "log")]) with (@Fine (list (item date f32 f64)) []) end.
      cbn [prepend]. rewrite !fold_left_app, fold_exts, fold_cls, fold_props, fold_globals. rewrite fold_traces. reflexivity.
    Qed.
  End Log.
End RT.
