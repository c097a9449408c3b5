(** C91: user data of the backend, its keys and its clones. *)
From Verif Require Import Py PyFacts ReplayModel UDataModel UDataSpec UDataProofs.

(** Keys are equal exactly if their calls of new are a multiple of 2^64 apart. *)
Theorem C91_key_ids : forall ops i j a b m n,
  nth_error (fst (keys_run ops 0 [])) i = Some a -> nth_error (fst (keys_run ops 0 [])) j = Some b ->
  nth_error (sources ops 0 []) i = Some m -> nth_error (sources ops 0 []) j = Some n ->
  (key_eq a b = true <-> (N.of_nat m mod 2 ^ 64 = N.of_nat n mod 2 ^ 64)%N).
Proof.
  intros ops i j a b m n Ea Eb Em En. pose proof (keys_run_sources ops 0 [] [] eq_refl) as H.
  change (N.of_nat 0 mod 2 ^ 64)%N with 0%N in H.
  assert (Ha : uk_id a = (N.of_nat m mod 2 ^ 64)%N).
  { apply (f_equal (fun l => nth_error l i)) in H. rewrite !nth_error_map, Ea, Em in H. cbn [option_map] in H. congruence. }
  assert (Hb : uk_id b = (N.of_nat n mod 2 ^ 64)%N).
  { apply (f_equal (fun l => nth_error l j)) in H. rewrite !nth_error_map, Eb, En in H. cbn [option_map] in H. congruence. }
  unfold key_eq. rewrite N.eqb_eq, Ha, Hb. reflexivity.
Qed.

(** So keys are never mixed up before 2^64 of them were made, whatever their types and names. *)
Theorem C91_keys_differ : forall ops i j a b, (N.of_nat (news ops) <= 2 ^ 64)%N ->
  nth_error (fst (keys_run ops 0 [])) i = Some a -> nth_error (fst (keys_run ops 0 [])) j = Some b ->
  (key_eq a b = true <-> nth_error (sources ops 0 []) i = nth_error (sources ops 0 []) j).
Proof.
  intros ops i j a b Hn Ea Eb. pose proof (keys_run_sources ops 0 [] [] eq_refl) as H. change (N.of_nat 0 mod 2 ^ 64)%N with 0%N in H.
  assert (Get : forall i k, nth_error (fst (keys_run ops 0 [])) i = Some k -> exists m, nth_error (sources ops 0 []) i = Some m /\ m < news ops).
  { intros i' k Ek. apply (f_equal (fun l => nth_error l i')) in H. rewrite !nth_error_map, Ek in H. destruct (nth_error (sources ops 0 []) i') as [m|] eqn:Em; [|discriminate].
    exists m. split; [reflexivity|]. apply nth_error_In, sources_bound in Em. destruct Em as [[]|Em]. exact Em. }
  destruct (Get i a Ea) as (m & Em & Bm). destruct (Get j b Eb) as (n & En & Bn).
  rewrite (C91_key_ids ops i j a b m n Ea Eb Em En), Em, En. rewrite !N.mod_small by lia. split; [intros E; f_equal; lia|intros E; injection E as ->; reflexivity].
Qed.

(** Without that bound two calls of new can give equal keys. *)
Theorem C91_keys_differ_refuted :
  ~ (forall ops i j a b, nth_error (fst (keys_run ops 0 [])) i = Some a -> nth_error (fst (keys_run ops 0 [])) j = Some b ->
     key_eq a b = true -> nth_error (sources ops 0 []) i = nth_error (sources ops 0 []) j).
Proof.
  intros H. assert (Big : exists big, N.of_nat big = (2 ^ 64)%N) by (exists (N.to_nat (2 ^ 64)); apply N2Nat.id).
  destruct Big as (big & Hbig). set (ops := repeat (KNew 0 []) (S big)).
  assert (Src : forall k n acc, sources (repeat (KNew 0 []) k) n acc = acc ++ seq n k).
  { induction k as [|k IH]; intros n acc; cbn [repeat sources seq]; [rewrite app_nil_r; reflexivity|]. rewrite IH, <- app_assoc. reflexivity. }
  assert (Hs : forall i, i < S big -> nth_error (sources ops 0 []) i = Some i).
  { intros i Hi. unfold ops. rewrite Src. cbn [app]. rewrite (nth_error_nth' (seq 0 (S big)) 0) by (rewrite seq_length; exact Hi). rewrite seq_nth by exact Hi. reflexivity. }
  pose proof (keys_run_sources ops 0 [] [] eq_refl) as K. change (N.of_nat 0 mod 2 ^ 64)%N with 0%N in K.
  assert (Get : forall i, i < S big -> exists k, nth_error (fst (keys_run ops 0 [])) i = Some k).
  { intros i Hi. apply (f_equal (fun l => nth_error l i)) in K. rewrite !nth_error_map, (Hs i Hi) in K.
    destruct (nth_error (fst (keys_run ops 0 [])) i) as [k|]; [eauto|discriminate]. }
  assert (B0 : 0 < S big) by apply Nat.lt_0_succ. assert (B1 : big < S big) by apply Nat.lt_succ_diag_r.
  destruct (Get 0 B0) as (a & Ea). destruct (Get big B1) as (b & Eb).
  pose proof (C91_key_ids ops 0 big a b 0 big Ea Eb (Hs 0 B0) (Hs big B1)) as Q.
  assert (E : key_eq a b = true). { apply Q. rewrite Hbig. reflexivity. }
  specialize (H ops 0 big a b Ea Eb E). rewrite (Hs 0 B0), (Hs big B1) in H. injection H as H.
  rewrite <- H in Hbig. discriminate.
Qed.

(** A program runs to its end, with user data as told by what it did, unless it reads or writes a value as one of another type; then it panics. *)
Theorem C91_run : forall ops, exists_data (rev ops) ->
  (right_types (rev ops) -> exists s, ud_run ops = Ok s /\
     (forall d k, d < datas (rev ops) -> ud_any s d k = Ok (look (rev ops) d k)) /\
     (forall d, d < datas (rev ops) -> exists x ids, nth_error (u_datas s) d = Some x /\ NoDup ids /\ length ids = ud_len x /\
        forall k, In (uk_id k) ids <-> look (rev ops) d k <> None)) /\
  (~ right_types (rev ops) -> ud_run ops = rpanic).
Proof.
  intros ops D. destruct (run_proof ops [] (mkU [] []) start_state I) as [R1 R2]; [rewrite app_nil_r; exact D|]. rewrite app_nil_r in *.
  split; [|exact R2]. intros T. destruct (R1 T) as (s & E & St). exists s. split; [exact E|]. split; [intros d k Hd; exact (any_proof _ s d k St Hd)|].
  intros d Hd. destruct St as (L1 & L2 & H & V & B) eqn:E0. clear E0.
  destruct (nth_error (u_datas s) d) as [x|] eqn:Ex; [|apply nth_error_None in Ex; lia].
  destruct (len_proof (rev ops) s d x) as (ids & N & L & I'); [repeat split; try assumption; apply (H _ _ H0)|exact Ex|].
  exists x, ids. split; [reflexivity|]. split; [exact N|]. split; [exact L|]. intros k. rewrite I'. unfold look.
  destruct (origin (rev ops) d (uk_id k)) as [p|] eqn:Ep; [|tauto]. rewrite <- V.
  destruct (nth_error (u_heap s) p) eqn:En; [split; discriminate|]. apply nth_error_None in En. apply B in Ep. lia.
Qed.

(** A program which uses the functions for keys of a type, and its own keys, never panics. *)
Theorem C91_typed : forall kops ops, (N.of_nat (news kops) <= 2 ^ 64)%N -> concrete_only (rev ops) (fst (keys_run kops 0 [])) ->
  exists_data (rev ops) -> exists s, ud_run ops = Ok s.
Proof.
  intros kops ops Hn C D. assert (T : right_types (rev ops)).
  { apply (typed_right _ _ C). intros a b Ha Hb E. apply In_nth_error in Ha. apply In_nth_error in Hb. destruct Ha as (i & Ha), Hb as (j & Hb).
    f_equal. apply (keys_run_ids kops 0 [] ltac:(lia) ltac:(intros k []) i j a b Ha Hb E). intros [|i'] j' q q' X; discriminate. }
  destruct (C91_run ops D) as [R _]. destruct (R T) as (s & E & _). eauto.
Qed.

(** With put_any it can. *)
Theorem C91_put_any_refuted :
  ~ (forall kops ops, (N.of_nat (news kops) <= 2 ^ 64)%N -> exists_data (rev ops) ->
     (forall d k t, In (DGet d k t) ops -> In k (fst (keys_run kops 0 [])) /\ t = uk_type k) -> exists s, ud_run ops = Ok s).
Proof.
  intros H. set (k := mkKey [] 1 0). destruct (H [KNew 1 []] [DNew; DPut 0 k (mkVal 2 5); DGet 0 k 1]) as (s & E).
  - vm_compute. discriminate.
  - cbn. lia.
  - intros d k' t [X|[X|[X|[]]]]; try discriminate. injection X as <- <- <-. split; [left; reflexivity|reflexivity].
  - discriminate.
Qed.

(** What put, remove and new change, for all user data and keys. *)
Theorem C91_put : forall ops s d k v, ud_run ops = Ok s -> exists_data (rev ops) -> d < datas (rev ops) ->
  exists s', ud_put s d k v = Ok s' /\ forall d' k', d' < datas (rev ops) ->
    ud_any s' d' k' = if (d' =? d) && (uk_id k' =? uk_id k)%N then Ok (Some v) else ud_any s d' k'.
Proof.
  intros ops s d k v E D Hd. pose proof (reach ops s E D) as St. destruct (step_proof (rev ops) s (DPut d k v) St Hd) as [S1 _].
  destruct (S1 Logic.I) as (s' & E' & St'). exists s'. split; [exact E'|]. intros d' k' Hd'.
  rewrite (any_proof _ s' d' k' St') by exact Hd'. rewrite (any_proof _ s d' k' St Hd'). unfold look. cbn [origin value_of].
  destruct (_ && _); [rewrite Nat.eqb_refl; reflexivity|]. destruct (origin (rev ops) d' (uk_id k')) as [p|] eqn:Ep; [|reflexivity].
  apply origin_bound in Ep. destruct (Nat.eqb_spec p (puts (rev ops))); [lia|reflexivity].
Qed.
Theorem C91_remove : forall ops s d k, ud_run ops = Ok s -> exists_data (rev ops) -> d < datas (rev ops) ->
  exists s', ud_remove s d k = Ok s' /\ forall d' k', d' < datas (rev ops) ->
    ud_any s' d' k' = if (d' =? d) && (uk_id k' =? uk_id k)%N then Ok None else ud_any s d' k'.
Proof.
  intros ops s d k E D Hd. pose proof (reach ops s E D) as St. destruct (step_proof (rev ops) s (DRemove d k) St Hd) as [S1 _].
  destruct (S1 Logic.I) as (s' & E' & St'). exists s'. split; [exact E'|]. intros d' k' Hd'.
  rewrite (any_proof _ s' d' k' St') by exact Hd'. rewrite (any_proof _ s d' k' St Hd'). unfold look. cbn [origin value_of].
  destruct (_ && _); reflexivity.
Qed.
Theorem C91_clone : forall ops s d, ud_run ops = Ok s -> exists_data (rev ops) -> d < datas (rev ops) ->
  exists s', ud_clone s d = Ok s' /\ (forall k, ud_any s' (datas (rev ops)) k = ud_any s d k) /\
    (forall d' k, d' < datas (rev ops) -> ud_any s' d' k = ud_any s d' k) /\
    (forall k, ud_any (ud_new s) (datas (rev ops)) k = Ok None).
Proof.
  intros ops s d E D Hd. pose proof (reach ops s E D) as St. destruct (step_proof (rev ops) s (DClone d) St Hd) as [S1 _].
  destruct (S1 Logic.I) as (s' & E' & St'). exists s'. split; [exact E'|]. split; [|split].
  - intros k. rewrite (any_proof _ s' _ k St') by (cbn [datas]; lia). rewrite (any_proof _ s d k St Hd). unfold look. cbn [origin value_of]. rewrite Nat.eqb_refl. reflexivity.
  - intros d' k Hd'. rewrite (any_proof _ s' d' k St') by (cbn [datas]; lia). rewrite (any_proof _ s d' k St Hd'). unfold look. cbn [origin value_of].
    destruct (Nat.eqb_spec d' (datas (rev ops))); [lia|reflexivity].
  - intros k. destruct (step_proof (rev ops) s DNew St Logic.I) as [S2 _]. destruct (S2 Logic.I) as (s2 & E2 & St2). injection E2 as <-.
    rewrite (any_proof _ _ _ k St2) by (cbn [datas]; lia). unfold look. cbn [origin]. rewrite Nat.eqb_refl. reflexivity.
Qed.

(** What is written through a reference from a clone is seen in the original. *)
Theorem C91_clone_shares : forall ops s d k old v, ud_run ops = Ok s -> exists_data (rev ops) -> d < datas (rev ops) ->
  ud_any s d k = Ok (Some old) -> v_type old = v_type v ->
  exists s1 s2, ud_clone s d = Ok s1 /\ ud_write s1 (datas (rev ops)) k v = Ok s2 /\
    ud_any s2 d k = Ok (Some v) /\ ud_any s2 (datas (rev ops)) k = Ok (Some v).
Proof.
  intros ops s d k old v E D Hd Ho Ht. pose proof (reach ops s E D) as St. rewrite (any_proof _ s d k St Hd) in Ho. injection Ho as Ho.
  destruct (step_proof (rev ops) s (DClone d) St Hd) as [S1 _]. destruct (S1 Logic.I) as (s1 & E1 & St1).
  assert (Hd1 : data_ok (DClone d :: rev ops) (DWrite (datas (rev ops)) k v)) by (cbn; lia).
  destruct (step_proof _ s1 _ St1 Hd1) as [S2 _].
  assert (Lk : look (DClone d :: rev ops) (datas (rev ops)) k = Some old) by (unfold look in *; cbn [origin value_of]; rewrite Nat.eqb_refl; exact Ho).
  destruct S2 as (s2 & E2 & St2).
  { cbn [type_ok]. intros w Hw. rewrite Lk in Hw. congruence. }
  exists s1, s2. split; [exact E1|]. split; [exact E2|].
  assert (Op : exists p, origin (rev ops) d (uk_id k) = Some p). { unfold look in Ho. destruct (origin (rev ops) d (uk_id k)); [eauto|discriminate]. }
  destruct Op as (p & Op).
  split; (rewrite (any_proof _ s2 _ k St2) by (cbn [datas]; lia)); unfold look; cbn [origin value_of].
  - destruct (Nat.eqb_spec d (datas (rev ops))); [lia|]. rewrite Op, !Nat.eqb_refl. rewrite ?Op, ?Nat.eqb_refl. reflexivity.
  - rewrite !Nat.eqb_refl, Op. rewrite ?Nat.eqb_refl. reflexivity.
Qed.
Theorem C91_clone_isolated_refuted :
  ~ (forall ops s d k v s1 s2, ud_run ops = Ok s -> exists_data (rev ops) -> d < datas (rev ops) ->
     ud_clone s d = Ok s1 -> ud_write s1 (datas (rev ops)) k v = Ok s2 -> forall k', ud_any s2 d k' = ud_any s d k').
Proof.
  intros H. set (k := mkKey [] 1 0).
  specialize (H [DNew; DPut 0 k (mkVal 1 5)] (mkU [mkVal 1 5] [Some [(0%N, 0)]]) 0 k (mkVal 1 6)
    (mkU [mkVal 1 5] [Some [(0%N, 0)]; Some [(0%N, 0)]]) (mkU [mkVal 1 6] [Some [(0%N, 0)]; Some [(0%N, 0)]]) eq_refl).
  specialize (H ltac:(cbn; lia) ltac:(cbn; lia) eq_refl eq_refl k). discriminate.
Qed.

(** Two keys of different types and a clone of one. *)
Definition some_keys : list key_op := [KNew 1 (str "log"); KNew 2 (str "log"); KClone 0; KNew 1 (str "log")].
Example C91_keys_case : map uk_id (fst (keys_run some_keys 0 [])) = [0; 1; 0; 2]%N /\ sources some_keys 0 [] = [0; 1; 0; 2] /\
  snd (keys_run [KNew 1 []] (2 ^ 64 - 1) []) = 0%N.
Proof. vm_compute. auto. Qed.
Definition ka := mkKey (str "a") 1 0.
Definition kb := mkKey (str "b") 2 1.
(** A value put in both, one written in the clone, one put anew in the clone, one removed in the original. *)
Definition some_program : list ud_op :=
  [DNew; DPut 0 ka (mkVal 1 10); DPut 0 kb (mkVal 2 20); DClone 0; DWrite 1 ka (mkVal 1 11); DPut 1 kb (mkVal 2 21); DWrite 0 kb (mkVal 2 22); DRemove 0 ka; DGet 1 ka 1].
Example C91_run_case : exists_data (rev some_program) /\ right_types (rev some_program) /\ datas (rev some_program) = 2 /\
  look (rev some_program) 0 ka = None /\ look (rev some_program) 1 ka = Some (mkVal 1 11) /\
  look (rev some_program) 0 kb = Some (mkVal 2 22) /\ look (rev some_program) 1 kb = Some (mkVal 2 21) /\
  ud_run (some_program ++ [DGet 0 kb 1]) = rpanic.
Proof.
  repeat split; try (vm_compute; reflexivity); try (cbn; lia); cbn; intros v E; injection E as <-; reflexivity.
Qed.
Example C91_typed_case : concrete_only (rev some_program) (fst (keys_run [KNew 1 (str "a"); KNew 2 (str "b")] 0 [])).
Proof.
  change (fst (keys_run [KNew 1 (str "a"); KNew 2 (str "b")] 0 [])) with [ka; kb].
  assert (F : Forall (fun op => match op_key op with Some (k, type) => In k [ka; kb] /\ uk_type k = type | None => True end) (rev some_program)).
  { cbn [rev app some_program]. repeat match goal with
      | |- Forall _ [] => constructor
      | |- Forall _ (_ :: _) => apply Forall_cons
      | |- _ => cbn; first [exact Logic.I | split; [left; reflexivity|reflexivity] | split; [right; left; reflexivity|reflexivity]]
      end. }
  intros op k type H E. rewrite Forall_forall in F. specialize (F op H). rewrite E in F. exact F.
Qed.

Print Assumptions C91_key_ids.
Print Assumptions C91_keys_differ_refuted.
Print Assumptions C91_run.
Print Assumptions C91_typed.
Print Assumptions C91_put.
Print Assumptions C91_clone.
Print Assumptions C91_clone_shares.
