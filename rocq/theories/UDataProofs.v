From Coq Require Import Permutation.
From Verif Require Import Py PyFacts ReplayModel UDataModel UDataSpec.

Lemma put_nth_nth {A} (l : list A) i x : i < length l -> length (put_nth l i x) = length l /\
  forall j, nth_error (put_nth l i x) j = if j =? i then Some x else nth_error l j.
Proof.
  intros H. unfold put_nth. assert (L : length (firstn i l) = i) by (rewrite firstn_length; lia). split.
  - rewrite app_length, L. cbn [length]. rewrite skipn_length. lia.
  - intros j. destruct (Nat.eqb_spec j i) as [->|Hj].
    + rewrite nth_error_app2, L, Nat.sub_diag by lia. reflexivity.
    + destruct (Nat.lt_ge_cases j i).
      * rewrite nth_error_app1 by lia. rewrite <- (firstn_skipn i l) at 2. rewrite nth_error_app1 by lia. reflexivity.
      * rewrite nth_error_app2, L by lia. destruct (j - i) as [|k] eqn:Ek; [lia|]. cbn [nth_error].
        rewrite <- (firstn_skipn (S i) l) at 2. assert (L' : length (firstn (S i) l) = S i) by (rewrite firstn_length; lia).
        rewrite nth_error_app2, L' by lia. f_equal. lia.
Qed.

Definition map_ok (x : udata) : Prop := match x with Some m => NoDup (dkeys m) | None => True end.
Definition place (x : udata) (id : N) : option nat := match x with Some m => dget N.eq_dec m id | None => None end.

(** The state of a program, by what it did. *)
Definition state_of (h : list ud_op) (s : ustate) : Prop :=
  length (u_datas s) = datas h /\ length (u_heap s) = puts h /\
  (forall d x, nth_error (u_datas s) d = Some x -> map_ok x /\ forall id, place x id = origin h d id) /\
  (forall p, nth_error (u_heap s) p = value_of h p) /\
  (forall d id p, origin h d id = Some p -> p < puts h).

Lemma clone_map (m : dict N nat) : NoDup (dkeys m) -> forall acc, NoDup (dkeys acc) ->
  let r := fold_left (fun n e => dset N.eq_dec n (fst e) (snd e)) m acc in
  NoDup (dkeys r) /\ forall id, dget N.eq_dec r id = match dget N.eq_dec m id with Some p => Some p | None => dget N.eq_dec acc id end.
Proof.
  induction m as [|[k v] m IH]; intros N acc Na; cbn [fold_left fst snd]; [split; [exact Na|reflexivity]|].
  inversion N; subst. destruct (IH H2 (dset N.eq_dec acc k v)) as [A B]; [apply dset_NoDup, Na|]. split; [exact A|]. intros id. rewrite B. cbn [dget].
  rewrite dget_dset. destruct (N.eq_dec k id) as [->|E].
  - destruct (N.eq_dec id id) as [_|E]; [|congruence]. assert (Z : dget N.eq_dec m id = None) by (apply dget_None; exact H1). rewrite Z. reflexivity.
  - destruct (N.eq_dec id k) as [->|_]; [congruence|]. reflexivity.
Qed.

Lemma look_place h s d k x : state_of h s -> nth_error (u_datas s) d = Some x -> ud_place x k = origin h d (uk_id k).
Proof. intros (_ & _ & H & _) E. destruct (H d x E) as [_ P]. rewrite <- P. destruct x; reflexivity. Qed.

Lemma any_proof h s d k : state_of h s -> d < datas h -> ud_any s d k = Ok (look h d k).
Proof.
  intros St Hd. pose proof St as (L1 & L2 & H & V & B). unfold ud_any, data_at.
  destruct (nth_error (u_datas s) d) as [x|] eqn:E; [|apply nth_error_None in E; lia]. cbn [bind].
  rewrite (look_place h s d k x St E). unfold look.
  destruct (origin h d (uk_id k)) as [p|] eqn:Ep; [|reflexivity]. rewrite <- V.
  destruct (nth_error (u_heap s) p) eqn:En; [reflexivity|]. apply nth_error_None in En. apply B in Ep. lia.
Qed.

Definition type_ok (h : list ud_op) (op : ud_op) : Prop :=
  match op with
  | DGet d k type => forall v, look h d k = Some v -> v_type v = type
  | DWrite d k new => forall v, look h d k = Some v -> v_type v = v_type new
  | _ => True
  end.
Definition data_ok (h : list ud_op) (op : ud_op) : Prop :=
  match op with DNew => True | DClone d | DPut d _ _ | DGet d _ _ | DWrite d _ _ | DRemove d _ => d < datas h end.

Lemma step_proof h s op : state_of h s -> data_ok h op ->
  (type_ok h op -> exists s', ud_step s op = Ok s' /\ state_of (op :: h) s') /\ (~ type_ok h op -> ud_step s op = rpanic).
Proof.
  intros St Hd. pose proof St as (L1 & L2 & H & V & B).
  assert (At : forall d, d < datas h -> exists x, nth_error (u_datas s) d = Some x).
  { intros d K. destruct (nth_error (u_datas s) d) as [x|] eqn:E; [eauto|]. apply nth_error_None in E. lia. }
  assert (Out : forall d x, nth_error (u_datas s) d = Some x -> d < datas h).
  { intros d x K. rewrite <- L1. apply nth_error_Some. congruence. }
  destruct op as [|d|d k v|d k type|d k v|d k]; cbn [ud_step data_ok type_ok] in *.
  - split; [|tauto]. intros _. eexists. split; [reflexivity|]. unfold state_of, ud_new. cbn [u_heap u_datas datas puts].
    split; [rewrite app_length, L1; cbn; lia|]. split; [exact L2|]. split; [|split; [exact V|]].
    + intros d x E. cbn [origin]. destruct (Nat.eqb_spec d (datas h)) as [->|Hn].
      * rewrite nth_error_app2, <- L1, Nat.sub_diag in E by lia. injection E as <-. split; [exact I|reflexivity].
      * assert (d < datas h). { assert (d < length (u_datas s ++ [None])) by (apply nth_error_Some; congruence). rewrite app_length in *. cbn in *. lia. }
        rewrite nth_error_app1 in E by lia. apply H, E.
    + intros d id p. cbn [origin]. destruct (d =? datas h); [discriminate|]. apply B.
  - split; [|tauto]. intros _. unfold ud_clone, data_at. destruct (At d Hd) as (x & Ex). rewrite Ex. cbn [bind].
    eexists. split; [reflexivity|]. unfold state_of. cbn [u_heap u_datas datas puts].
    split; [rewrite app_length, L1; cbn; lia|]. split; [exact L2|]. split; [|split; [exact V|]].
    + intros d' x' E. cbn [origin]. destruct (Nat.eqb_spec d' (datas h)) as [->|Hn].
      * rewrite nth_error_app2, <- L1, Nat.sub_diag in E by lia. injection E as <-. destruct (H d x Ex) as [M P].
        destruct x as [m|]; [|split; [exact I|exact P]]. cbn [map_ok] in M.
        destruct (clone_map m M [] (NoDup_nil _)) as [C1 C2]. split; [exact C1|]. intros id. cbn [place]. rewrite C2, <- P. cbn [place dget].
        destruct (dget N.eq_dec m id); reflexivity.
      * assert (d' < datas h). { assert (K : d' < length (u_datas s) + 1) by (assert (nth_error (u_datas s ++ [match x with Some map => Some (fold_left (fun new_map e => dset N.eq_dec new_map (fst e) (snd e)) map []) | None => None end]) d' <> None) as K by congruence; apply nth_error_Some in K; rewrite app_length in K; exact K). lia. }
        rewrite nth_error_app1 in E by lia. apply H, E.
    + intros d' id p. cbn [origin]. destruct (d' =? datas h); apply B.
  - split; [|tauto]. intros _. unfold ud_put, data_at. destruct (At d Hd) as (x & Ex). rewrite Ex. cbn [bind].
    assert (Ld : d < length (u_datas s)) by lia.
    destruct (put_nth_nth (u_datas s) d (Some (dset N.eq_dec (ud_initialize x) (uk_id k) (length (u_heap s)))) Ld) as [P1 P2].
    eexists. split; [reflexivity|]. unfold state_of. cbn [u_heap u_datas datas puts].
    split; [rewrite P1; exact L1|]. split; [rewrite app_length, L2; cbn; lia|]. split; [|split].
    + intros d' x' E. rewrite P2 in E. cbn [origin]. destruct (Nat.eqb_spec d' d) as [->|Hn].
      * injection E as <-. destruct (H d x Ex) as [M P]. cbn [map_ok place]. split.
        -- apply dset_NoDup. destruct x; [exact M|constructor].
        -- intros id. rewrite dget_dset. cbn [andb]. rewrite L2. destruct (N.eqb_spec id (uk_id k)) as [->|En].
           ++ destruct (N.eq_dec (uk_id k) (uk_id k)); [reflexivity|congruence].
           ++ destruct (N.eq_dec (uk_id k) id); [congruence|]. rewrite <- P. destruct x; reflexivity.
      * cbn [andb]. apply H, E.
    + intros p. cbn [value_of]. destruct (Nat.eqb_spec p (puts h)) as [->|Hn].
      * rewrite nth_error_app2, <- L2, Nat.sub_diag by lia. reflexivity.
      * rewrite <- V. destruct (Nat.lt_ge_cases p (puts h)); [apply nth_error_app1; lia|].
        assert (length (u_heap s ++ [v]) <= p) by (rewrite app_length; cbn; lia).
        rewrite (proj2 (nth_error_None _ _) H1). symmetry. apply nth_error_None. lia.
    + intros d' id p. cbn [origin]. destruct (_ && _); [intros E; injection E as <-; lia|]. intros E. apply B in E. lia.
  - unfold ud_get. rewrite (any_proof h s d k St Hd). cbn [bind]. destruct (look h d k) as [v|] eqn:E.
    + destruct (N.eqb_spec (v_type v) type) as [T|T]; cbn [bind].
      * split; [intros _; exists s; split; [reflexivity|exact St]|]. intros X. exfalso. apply X. intros v' Ev. congruence.
      * split; [intros X; exfalso; apply T, X; reflexivity|reflexivity].
    + cbn [bind]. split; [intros _; exists s; split; [reflexivity|exact St]|]. intros X. exfalso. apply X. discriminate.
  - unfold ud_write, data_at. destruct (At d Hd) as (x & Ex). rewrite Ex. cbn [bind]. rewrite (look_place h s d k x St Ex). unfold look.
    destruct (origin h d (uk_id k)) as [p|] eqn:Ep.
    + rewrite <- V. destruct (nth_error (u_heap s) p) as [old|] eqn:En; [|apply nth_error_None in En; apply B in Ep; lia].
      destruct (N.eqb_spec (v_type old) (v_type v)) as [T|T].
      * split; [|intros X; exfalso; apply X; congruence]. intros _. assert (Lp : p < length (u_heap s)) by (apply nth_error_Some; congruence).
        destruct (put_nth_nth (u_heap s) p v Lp) as [P1 P2]. eexists. split; [reflexivity|]. unfold state_of. cbn [u_heap u_datas datas puts].
        split; [exact L1|]. split; [congruence|]. split; [exact H|]. split; [|exact B].
        intros q. cbn [value_of]. rewrite Ep, P2. destruct (q =? p); [reflexivity|apply V].
      * split; [intros X; exfalso; apply T, X; reflexivity|reflexivity].
    + split; [|intros X; exfalso; apply X; discriminate]. intros _. exists s. split; [reflexivity|]. unfold state_of. cbn [datas puts].
      split; [exact L1|]. split; [exact L2|]. split; [exact H|]. split; [|exact B]. intros q. cbn [value_of]. rewrite Ep. apply V.
  - split; [|tauto]. intros _. unfold ud_remove, data_at. destruct (At d Hd) as (x & Ex). rewrite Ex. cbn [bind].
    assert (Ld : d < length (u_datas s)) by lia.
    destruct (put_nth_nth (u_datas s) d (match x with Some map => Some (ddel N.eq_dec map (uk_id k)) | None => None end) Ld) as [P1 P2].
    eexists. split; [reflexivity|]. unfold state_of. cbn [u_heap u_datas datas puts].
    split; [rewrite P1; exact L1|]. split; [exact L2|]. split; [|split; [exact V|]].
    + intros d' x' E. rewrite P2 in E. cbn [origin]. destruct (Nat.eqb_spec d' d) as [->|Hn]; [|apply H, E].
      injection E as <-. destruct (H d x Ex) as [M P]. destruct x as [m|]; cbn [map_ok place andb] in *.
      * split; [apply ddel_NoDup, M|]. intros id. rewrite dget_ddel by exact M. rewrite <- P.
        destruct (N.eqb_spec id (uk_id k)) as [->|En]; destruct (N.eq_dec _ _); congruence.
      * split; [exact I|]. intros id. rewrite <- P. destruct (id =? uk_id k)%N; reflexivity.
    + intros d' id p. cbn [origin]. destruct (_ && _); [discriminate|]. apply B.
Qed.

Lemma type_ok_dec h op : type_ok h op \/ ~ type_ok h op.
Proof.
  destruct op as [|d|d k v|d k type|d k v|d k]; cbn; auto.
  - destruct (look h d k) as [v|]; [|left; discriminate]. destruct (N.eq_dec (v_type v) type) as [E|E]; [left; congruence|right; intros X; apply E, X; reflexivity].
  - destruct (look h d k) as [w|]; [|left; discriminate]. destruct (N.eq_dec (v_type w) (v_type v)) as [E|E]; [left; congruence|right; intros X; apply E, X; reflexivity].
Qed.

Lemma exists_data_app a b : exists_data (a ++ b) -> exists_data b.
Proof. induction a as [|x a IH]; [auto|]. intros [_ H]. apply IH, H. Qed.
Lemma right_types_app a b : right_types (a ++ b) -> right_types b.
Proof. induction a as [|x a IH]; [auto|]. intros [_ H]. apply IH, H. Qed.

Lemma run_proof ops : forall h s, state_of h s -> right_types h -> exists_data (rev ops ++ h) ->
  (right_types (rev ops ++ h) -> exists s', loopM ud_step ops s = Ok s' /\ state_of (rev ops ++ h) s') /\
  (~ right_types (rev ops ++ h) -> loopM ud_step ops s = rpanic).
Proof.
  induction ops as [|op ops IH]; intros h s St R D.
  - cbn [rev app]. split; [intros _; exists s; split; [reflexivity|exact St]|tauto].
  - cbn [rev] in *. rewrite <- app_assoc in *. cbn [app] in *. rewrite loopM_cons.
    pose proof (exists_data_app _ _ D) as [Dh _]. destruct (step_proof h s op St Dh) as [S1 S2].
    destruct (type_ok_dec h op) as [T|T].
    + destruct (S1 T) as (s' & E & St'). rewrite E. cbn [bind]. apply IH; [exact St'|split; [exact T|exact R]|exact D].
    + rewrite (S2 T). split; [|reflexivity]. intros X. apply right_types_app in X. destruct X as [X _]. exfalso. apply T, X.
Qed.

Lemma start_state : state_of [] (mkU [] []).
Proof.
  split; [reflexivity|]. split; [reflexivity|]. split; [intros [|d] x E; discriminate|]. split; [intros [|p]; reflexivity|]. discriminate.
Qed.

(* ---- keys ---- *)
Lemma keys_run_ids ops : forall c keys, (c + N.of_nat (news ops) <= 2 ^ 64)%N ->
  (forall k, In k keys -> (uk_id k < c)%N) ->
  forall i j k k', nth_error (fst (keys_run ops c keys)) i = Some k -> nth_error (fst (keys_run ops c keys)) j = Some k' ->
  uk_id k = uk_id k' -> (forall i j k k', nth_error keys i = Some k -> nth_error keys j = Some k' -> uk_id k = uk_id k' -> k = k') -> k = k'.
Proof.
  induction ops as [|op ops IH]; intros c keys Hc Hk i j k k' Ei Ej E Old; [exact (Old i j k k' Ei Ej E)|].
  destruct op as [type name|w]; cbn [keys_run key_new] in *; unfold news in *; cbn [filter length] in *.
  - assert (Hm : c = (2 ^ 64 - 1)%N \/ ((c + 1) mod 2 ^ 64 = c + 1)%N).
    { destruct (N.eq_dec c (2 ^ 64 - 1)) as [K|K]; [auto|right]. apply N.mod_small. lia. }
    destruct Hm as [->|Hm].
    + (* the last key *)
      assert (Hz : length (filter (fun o => match o with KNew _ _ => true | KClone _ => false end) ops) = 0) by lia.
      assert (Gen : forall ops c keys, length (filter (fun o => match o with KNew _ _ => true | KClone _ => false end) ops) = 0 ->
                 forall k, In k (fst (keys_run ops c keys)) -> In k keys).
      { clear. induction ops as [|[t n|w] ops IH]; intros c keys Hz k Hk; [exact Hk|discriminate|]. cbn [keys_run] in Hk. apply IH in Hk; [|exact Hz].
        destruct (nth_error keys w) as [kw|] eqn:Ew; [|exact Hk]. apply in_app_iff in Hk. destruct Hk as [Hk|[<-|[]]]; [exact Hk|].
        apply nth_error_In in Ew. destruct kw; exact Ew. }
      apply nth_error_In in Ei. apply nth_error_In in Ej. apply Gen in Ei; [|exact Hz]. apply Gen in Ej; [|exact Hz].
      apply in_app_iff in Ei. apply in_app_iff in Ej. destruct Ei as [Ei|[<-|[]]], Ej as [Ej|[<-|[]]].
      * apply In_nth_error in Ei. apply In_nth_error in Ej. destruct Ei as (a & Ei), Ej as (b & Ej). exact (Old a b k k' Ei Ej E).
      * apply Hk in Ei. cbn [uk_id] in E. lia.
      * apply Hk in Ej. cbn [uk_id] in E. lia.
      * reflexivity.
    + rewrite Hm in *. refine (IH (c + 1)%N (keys ++ [mkKey name type c]) _ _ i j k k' Ei Ej E _); [lia| |].
      * intros q Hq. apply in_app_iff in Hq. destruct Hq as [Hq|[<-|[]]]; [apply Hk in Hq; lia|cbn; lia].
      * intros a b q q' Ea Eb Eq. apply nth_error_In in Ea. apply nth_error_In in Eb. apply in_app_iff in Ea. apply in_app_iff in Eb.
        destruct Ea as [Ea|[<-|[]]], Eb as [Eb|[<-|[]]].
        -- apply In_nth_error in Ea. apply In_nth_error in Eb. destruct Ea as (a' & Ea), Eb as (b' & Eb). exact (Old a' b' q q' Ea Eb Eq).
        -- apply Hk in Ea. cbn [uk_id] in Eq. lia.
        -- apply Hk in Eb. cbn [uk_id] in Eq. lia.
        -- reflexivity.
  - assert (Same : forall q, In q (match nth_error keys w with Some k0 => keys ++ [key_clone k0] | None => keys end) -> In q keys).
    { intros q Hq. destruct (nth_error keys w) as [kw|] eqn:Ew; [|exact Hq]. apply in_app_iff in Hq. destruct Hq as [Hq|[<-|[]]]; [exact Hq|].
      apply nth_error_In in Ew. destruct kw; exact Ew. }
    refine (IH c _ Hc _ i j k k' Ei Ej E _).
    + intros q Hq. apply Hk, Same, Hq.
    + intros a b q q' Ea Eb Eq. apply nth_error_In, Same, In_nth_error in Ea. apply nth_error_In, Same, In_nth_error in Eb.
      destruct Ea as (a' & Ea), Eb as (b' & Eb). exact (Old a' b' q q' Ea Eb Eq).
Qed.

(** Values put through keys have their types. *)
Lemma typed_values h keys : concrete_only h keys -> (forall a b, In a keys -> In b keys -> uk_id a = uk_id b -> uk_type a = uk_type b) ->
  forall d k v, In k keys -> look h d k = Some v -> v_type v = uk_type k.
Proof.
  intros C I.
  assert (G : forall d k p v, origin h d (uk_id k) = Some p -> value_of h p = Some v -> In k keys -> v_type v = uk_type k).
  { assert (Bd : forall h d id p, origin h d id = Some p -> p < puts h).
    { clear. induction h as [|op h IH]; intros d id p E; [discriminate|]. destruct op as [|c|d0 k0 v0|d0 k0 t0|d0 k0 v0|d0 k0]; cbn [origin puts] in *.
      - destruct (_ =? _); [discriminate|]. exact (IH _ _ _ E).
      - destruct (_ =? _); exact (IH _ _ _ E).
      - destruct (_ && _); [injection E as <-; lia|]. apply IH in E. lia.
      - exact (IH _ _ _ E).
      - exact (IH _ _ _ E).
      - destruct (_ && _); [discriminate|]. exact (IH _ _ _ E). }
    induction h as [|op h IH]; intros d k p v Eo Ev Hk; [discriminate|].
    assert (C' : concrete_only h keys) by (intros op' k' t' H; apply C; right; exact H). specialize (IH C').
    destruct op as [|c|d0 k0 v0|d0 k0 t0|d0 k0 v0|d0 k0]; cbn [origin value_of] in *.
    - destruct (_ =? _); [discriminate|]. exact (IH _ _ _ _ Eo Ev Hk).
    - destruct (_ =? _); exact (IH _ _ _ _ Eo Ev Hk).
    - destruct ((d =? d0) && (uk_id k =? uk_id k0)%N) eqn:Eq.
      + injection Eo as <-. rewrite Nat.eqb_refl in Ev. injection Ev as <-. apply andb_true_iff in Eq. destruct Eq as [_ Eq]. apply N.eqb_eq in Eq.
        destruct (C (DPut d0 k0 v0) k0 (v_type v0) (or_introl eq_refl) eq_refl) as [K1 K2]. rewrite <- K2. symmetry. apply I; auto.
      + destruct (Nat.eqb_spec p (puts h)) as [->|Hn]; [apply Bd in Eo; lia|]. exact (IH _ _ _ _ Eo Ev Hk).
    - exact (IH _ _ _ _ Eo Ev Hk).
    - destruct (origin h d0 (uk_id k0)) as [q|] eqn:Eq; [|exact (IH _ _ _ _ Eo Ev Hk)].
      destruct (Nat.eqb_spec p q) as [->|Hn]; [|exact (IH _ _ _ _ Eo Ev Hk)]. injection Ev as <-.
      destruct (C (DWrite d0 k0 v0) k0 (v_type v0) (or_introl eq_refl) eq_refl) as [K1 K2]. rewrite <- K2.
      (* both come from one put, so the ids agree *)
      apply I; [exact K1|exact Hk|].
      assert (Same : forall h a b p x y, origin h a x = Some p -> origin h b y = Some p -> x = y).
      { clear -Bd. induction h as [|op h IH]; intros a b p x y Ea Eb; [discriminate|].
        destruct op as [|c|d0 k0 v0|d0 k0 t0|d0 k0 v0|d0 k0]; cbn [origin] in *.
        - destruct (a =? _), (b =? _); try discriminate. exact (IH _ _ _ _ _ Ea Eb).
        - destruct (a =? _), (b =? _); exact (IH _ _ _ _ _ Ea Eb).
        - destruct ((a =? d0) && (x =? uk_id k0)%N) eqn:E1, ((b =? d0) && (y =? uk_id k0)%N) eqn:E2.
          + apply andb_true_iff in E1, E2. destruct E1 as [_ E1], E2 as [_ E2]. apply N.eqb_eq in E1, E2. congruence.
          + injection Ea as <-. apply Bd in Eb. lia.
          + injection Eb as <-. apply Bd in Ea. lia.
          + exact (IH _ _ _ _ _ Ea Eb).
        - exact (IH _ _ _ _ _ Ea Eb).
        - exact (IH _ _ _ _ _ Ea Eb).
        - destruct ((a =? d0) && (x =? uk_id k0)%N), ((b =? d0) && (y =? uk_id k0)%N); try discriminate. exact (IH _ _ _ _ _ Ea Eb). }
      exact (Same h d0 d q _ _ Eq Eo).
    - destruct ((d =? d0) && (uk_id k =? uk_id k0)%N); [discriminate|]. exact (IH _ _ _ _ Eo Ev Hk). }
  intros d k v Hk L. unfold look in L. destruct (origin h d (uk_id k)) as [p|] eqn:Eo; [|discriminate]. exact (G d k p v Eo L Hk).
Qed.

Lemma typed_right h keys : concrete_only h keys -> (forall a b, In a keys -> In b keys -> uk_id a = uk_id b -> uk_type a = uk_type b) -> right_types h.
Proof.
  intros C I. induction h as [|op h IH]; [exact Logic.I|].
  assert (C' : concrete_only h keys) by (intros op' k' t' H; apply C; right; exact H).
  split; [|exact (IH C')]. destruct op as [|c|d0 k0 v0|d0 k0 t0|d0 k0 v0|d0 k0]; try exact Logic.I.
  - destruct (C (DGet d0 k0 t0) k0 t0 (or_introl eq_refl) eq_refl) as [K1 K2]. intros v E. rewrite <- K2. exact (typed_values h keys C' I d0 k0 v K1 E).
  - destruct (C (DWrite d0 k0 v0) k0 (v_type v0) (or_introl eq_refl) eq_refl) as [K1 K2]. intros v E. rewrite <- K2. exact (typed_values h keys C' I d0 k0 v K1 E).
Qed.

Lemma len_proof h s d x : state_of h s -> nth_error (u_datas s) d = Some x ->
  exists ids, NoDup ids /\ length ids = ud_len x /\ forall id, In id ids <-> origin h d id <> None.
Proof.
  intros (_ & _ & H & _) E. destruct (H d x E) as [M P]. destruct x as [m|]; cbn [map_ok place ud_len] in *.
  - exists (dkeys m). split; [exact M|]. split; [unfold dkeys; apply map_length|]. intros id. rewrite <- P. rewrite dget_Some_key. split.
    + intros (v & ->). discriminate.
    + intros K. destruct (dget N.eq_dec m id) as [v|]; [eauto|congruence].
  - exists []. split; [constructor|]. split; [reflexivity|]. intros id. rewrite <- P. cbn. split; [tauto|congruence].
Qed.

Lemma keys_run_sources ops : forall n keys acc, map uk_id keys = map (fun m => N.of_nat m mod 2 ^ 64)%N acc ->
  map uk_id (fst (keys_run ops (N.of_nat n mod 2 ^ 64)%N keys)) = map (fun m => N.of_nat m mod 2 ^ 64)%N (sources ops n acc).
Proof.
  induction ops as [|[type name|i] ops IH]; intros n keys acc E; [exact E| |]; cbn [keys_run key_new sources].
  - assert (C : ((N.of_nat n mod 2 ^ 64 + 1) mod 2 ^ 64 = N.of_nat (S n) mod 2 ^ 64)%N).
    { rewrite N.add_mod_idemp_l by discriminate. f_equal. lia. }
    rewrite C. apply IH. rewrite !map_app, E. reflexivity.
  - apply IH. assert (Ni : option_map uk_id (nth_error keys i) = option_map (fun m => N.of_nat m mod 2 ^ 64)%N (nth_error acc i)).
    { rewrite <- !nth_error_map, E. reflexivity. }
    destruct (nth_error keys i) as [k|], (nth_error acc i) as [m|]; cbn in Ni; try discriminate; [|exact E].
    injection Ni as Ni. rewrite !map_app, E. cbn [map key_clone uk_id]. rewrite Ni. reflexivity.
Qed.
Lemma sources_bound ops : forall n acc m, In m (sources ops n acc) -> In m acc \/ m < n + news ops.
Proof.
  induction ops as [|[type name|i] ops IH]; intros n acc m H; [left; exact H| |]; cbn [sources] in H; unfold news in *; cbn [filter length] in *.
  - apply IH in H. destruct H as [H|H]; [|right; lia]. apply in_app_iff in H. destruct H as [H|[<-|[]]]; [left; exact H|right; lia].
  - apply IH in H. destruct H as [H|H]; [|right; lia]. destruct (nth_error acc i) as [q|] eqn:E; [|left; exact H].
    apply in_app_iff in H. destruct H as [H|[<-|[]]]; [left; exact H|left]. eapply nth_error_In, E.
Qed.
Lemma origin_bound h : forall d id p, origin h d id = Some p -> p < puts h.
Proof.
  induction h as [|op h IH]; intros d id p E; [discriminate|]. destruct op as [|c|d0 k0 v0|d0 k0 t0|d0 k0 v0|d0 k0]; cbn [origin puts] in *.
  - destruct (_ =? _); [discriminate|]. exact (IH _ _ _ E).
  - destruct (_ =? _); exact (IH _ _ _ E).
  - destruct (_ && _); [injection E as <-; lia|]. apply IH in E. lia.
  - exact (IH _ _ _ E).
  - exact (IH _ _ _ E).
  - destruct (_ && _); [discriminate|]. exact (IH _ _ _ E).
Qed.
Lemma reach ops s : ud_run ops = Ok s -> exists_data (rev ops) -> state_of (rev ops) s.
Proof.
  intros E D. destruct (run_proof ops [] (mkU [] []) start_state I) as [R1 R2]; [rewrite app_nil_r; exact D|]. rewrite app_nil_r in *.
  destruct (loopM ud_step ops (mkU [] [])) eqn:El; unfold ud_run in E; rewrite El in E; [|discriminate]. injection E as ->.
  assert (T : right_types (rev ops) \/ ~ right_types (rev ops)).
  { clear. induction (rev ops) as [|op h [IH|IH]]; [left; exact I| |right; intros [_ X]; auto].
    destruct (type_ok_dec h op) as [T|T]; [left; split; assumption|right]. intros [X _]. apply T, X. }
  destruct T as [T|T]; [|specialize (R2 T); discriminate]. destruct (R1 T) as (s' & E' & H). injection E' as ->. exact H.
Qed.
