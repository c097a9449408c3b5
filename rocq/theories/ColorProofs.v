(** Proofs for C41. *)
From Verif Require Import Py PyFacts LogModel ColorModel ColorSpec.

(** *** Hexadecimal colours *)
Lemma hex_digit_char n : (n < 16)%N -> hex_char (hex_digit n).
Proof. intros H. unfold hex_char, hex_digit. destruct (N.ltb_spec n 10); lia. Qed.
Lemma hex_digit_value n : (n < 16)%N -> hex_value (hex_digit n) = n.
Proof.
  intros H. unfold hex_value, hex_digit. destruct (N.ltb_spec n 10).
  - destruct (N.leb_spec (48 + n) 57); lia.
  - destruct (N.leb_spec (55 + n) 57); lia.
Qed.
Lemma hex_char_digit c : hex_char c -> (hex_value c < 16)%N /\ hex_digit (hex_value c) = c.
Proof.
  unfold hex_char, hex_value, hex_digit. intros H. destruct (N.leb_spec c 57).
  - destruct (N.ltb_spec (c - 48) 10); lia.
  - destruct (N.ltb_spec (c - 55) 10); lia.
Qed.
Lemma div16 n : (n < 256)%N -> (n / 16 < 16)%N.
Proof. intros. apply N.div_lt_upper_bound; lia. Qed.
Lemma mod16 n : (n mod 16 < 16)%N.
Proof. apply N.mod_lt. lia. Qed.
Lemma hex_proof r g b : (r < 256)%N -> (g < 256)%N -> (b < 256)%N ->
  is_color (to_hex r g b) /\ components (to_hex r g b) = Some (r, g, b).
Proof.
  intros Hr Hg Hb. pose proof (div16 r Hr). pose proof (div16 g Hg). pose proof (div16 b Hb).
  pose proof (mod16 r). pose proof (mod16 g). pose proof (mod16 b).
  split.
  - unfold to_hex, hex2. cbn [app]. do 6 eexists. split; [reflexivity|].
    repeat (apply Forall_cons; [apply hex_digit_char; assumption|]). apply Forall_nil.
  - unfold to_hex, hex2. cbn [app components]. rewrite !hex_digit_value by assumption.
    rewrite <- !N.div_mod by lia. reflexivity.
Qed.
Lemma to_hex_inj r g b r' g' b' : (r < 256)%N -> (g < 256)%N -> (b < 256)%N -> (r' < 256)%N -> (g' < 256)%N -> (b' < 256)%N ->
  to_hex r g b = to_hex r' g' b' -> r = r' /\ g = g' /\ b = b'.
Proof.
  intros. destruct (hex_proof r g b) as [_ E]; auto. destruct (hex_proof r' g' b') as [_ E']; auto.
  rewrite H5 in E. rewrite E in E'. injection E' as -> -> ->. auto.
Qed.
Lemma color_of_components s : is_color s -> exists r g b, (r < 256)%N /\ (g < 256)%N /\ (b < 256)%N /\ s = to_hex r g b.
Proof.
  intros (a & b & c & d & e & f & -> & H).
  repeat match goal with H : Forall _ (_ :: _) |- _ => inversion H; subst; clear H end.
  repeat match goal with H : hex_char ?x |- _ => apply hex_char_digit in H; destruct H end.
  exists (16 * hex_value a + hex_value b)%N, (16 * hex_value c + hex_value d)%N, (16 * hex_value e + hex_value f)%N.
  repeat split; try lia. unfold to_hex, hex2. cbn [app].
  assert (Hd : forall x y, (x < 16)%N -> (y < 16)%N -> ((16 * x + y) / 16 = x)%N /\ ((16 * x + y) mod 16 = y)%N).
  { intros x y Hx Hy. split.
    - symmetry. apply N.div_unique with y; lia.
    - symmetry. apply N.mod_unique with x; lia. }
  repeat match goal with |- context[((16 * ?x + ?y) / 16)%N] => destruct (Hd x y) as [-> ->]; auto end.
  congruence.
Qed.

(** *** Counting colours *)
Definition nth_color (n : N) : pystr := to_hex (n / 65536) (n / 256 mod 256) (n mod 256).
Definition all_colors : list pystr := map (fun i => nth_color (N.of_nat i)) (seq 0 (N.to_nat (256 ^ 3))).
Lemma all_colors_length : length all_colors = N.to_nat (256 ^ 3).
Proof. unfold all_colors. rewrite map_length, seq_length. reflexivity. Qed.
Lemma pow3 : (256 ^ 3 = 16777216)%N. Proof. reflexivity. Qed.
Lemma nth_color_parts n : (n < 256 ^ 3)%N -> (n / 65536 < 256 /\ n / 256 mod 256 < 256 /\ n mod 256 < 256)%N.
Proof.
  rewrite pow3. intros H. split; [apply N.div_lt_upper_bound; lia|]. split; apply N.mod_lt; lia.
Qed.
Lemma nth_color_inj n m : (n < 256 ^ 3)%N -> (m < 256 ^ 3)%N -> nth_color n = nth_color m -> n = m.
Proof.
  intros Hn Hm E. destruct (nth_color_parts n Hn) as (?&?&?). destruct (nth_color_parts m Hm) as (?&?&?).
  apply to_hex_inj in E; auto. destruct E as (E1&E2&E3).
  assert (D : forall x, (x = 256 * (256 * (x / 65536) + x / 256 mod 256) + x mod 256)%N).
  { intros x. replace (x / 65536)%N with (x / 256 / 256)%N by (rewrite N.div_div by lia; reflexivity).
    rewrite <- N.div_mod by lia. apply N.div_mod. lia. }
  rewrite (D n), (D m), E1, E2, E3. reflexivity.
Qed.
Lemma all_colors_NoDup : NoDup all_colors.
Proof.
  unfold all_colors. generalize (N.to_nat (256 ^ 3)) (N2Nat.id (256 ^ 3)). intros M EM.
  apply NoDup_nth_error. intros i j Hi E. rewrite map_length, seq_length in Hi.
  rewrite !nth_error_map in E.
  rewrite (nth_error_nth' (seq 0 M) 0) in E by (rewrite seq_length; exact Hi). rewrite seq_nth in E by exact Hi.
  destruct (nth_error (seq 0 M) j) as [k|] eqn:Ej; [|discriminate].
  assert (Hj : j < M) by (rewrite <- (seq_length M 0); apply nth_error_Some; congruence).
  rewrite (nth_error_nth' (seq 0 M) 0) in Ej by (rewrite seq_length; exact Hj). rewrite seq_nth in Ej by exact Hj.
  injection Ej as <-. cbn [option_map Nat.add] in E.
  apply (f_equal (fun o : option pystr => match o with Some x => x | None => [] end)) in E. cbv beta iota in E.
  apply nth_color_inj in E; [lia| |]; rewrite <- EM; lia.
Qed.
Lemma all_colors_color c : In c all_colors -> is_color c.
Proof.
  unfold all_colors. intros H. apply in_map_iff in H. destruct H as (i & <- & Hi). apply in_seq in Hi.
  assert (Hlt : (N.of_nat i < 256 ^ 3)%N) by (destruct Hi as [_ Hi]; revert Hi; generalize (256 ^ 3)%N; intros; lia).
  destruct (nth_color_parts _ Hlt) as (?&?&?). apply hex_proof; assumption.
Qed.
Lemma all_colors_all c : is_color c -> In c all_colors.
Proof.
  intros H. apply color_of_components in H. destruct H as (r & g & b & Hr & Hg & Hb & ->).
  unfold all_colors. apply in_map_iff. exists (N.to_nat (65536 * r + 256 * g + b)). rewrite N2Nat.id. split.
  - unfold nth_color. f_equal.
    + symmetry. apply N.div_unique with (256 * g + b)%N; lia.
    + replace ((65536 * r + 256 * g + b) / 256)%N with (256 * r + g)%N by (apply N.div_unique with b; lia).
      symmetry. apply N.mod_unique with r; lia.
    + symmetry. apply N.mod_unique with (256 * r + g)%N; lia.
  - apply in_seq. split; [lia|]. assert ((65536 * r + 256 * g + b < 256 ^ 3)%N) by (rewrite pow3; lia).
    revert H. generalize (256 ^ 3)%N. intros; lia.
Qed.
Lemma NoDup_map_CHex l : NoDup l -> NoDup (map CHex l).
Proof.
  induction 1 as [|x l Hni Hnd IH]; cbn; constructor; auto.
  intros H. apply in_map_iff in H. destruct H as (y & E & Hy). injection E as ->. contradiction.
Qed.

(** Some colour is free when fewer than 256^3 things are taken. *)
Lemma free_color us : (N.of_nat (length us) < 256 ^ 3)%N -> exists c, is_color c /\ ~ In (CHex c) us.
Proof.
  intros Hlen.
  destruct (Exists_dec (fun c => ~ In (CHex c) us) all_colors) as [E|E].
  { intros c. destruct (in_dec cobj_eq_dec (CHex c) us); [right; tauto|left; assumption]. }
  - apply Exists_exists in E. destruct E as (c & Hc & Hni). exists c. split; [apply all_colors_color; exact Hc|exact Hni].
  - exfalso. assert (Hincl : incl (map CHex all_colors) us).
    { intros x Hx. apply in_map_iff in Hx. destruct Hx as (c & <- & Hc).
      destruct (in_dec cobj_eq_dec (CHex c) us) as [|Hni]; [assumption|]. exfalso. apply E. apply Exists_exists. eauto. }
    apply NoDup_incl_length in Hincl; [|apply NoDup_map_CHex, all_colors_NoDup].
    rewrite map_length, all_colors_length in Hincl. revert Hlen Hincl. generalize (256 ^ 3)%N. intros; lia.
Qed.

(** *** The provider *)
Section Random.
  Variable rnd : nat -> N.
  Variable fuel : nat.

  (** The k-th colour drawn from position n on. *)
  Definition color_at (n k : nat) : pystr := to_hex (rnd (n + 3 * k)) (rnd (n + 3 * k + 1)) (rnd (n + 3 * k + 2)).

  Lemma use_new x p : ~ In x (used p) -> use x p = mkProv (x :: used p) (drawn p).
  Proof. intros H. unfold use. destruct (in_dec cobj_eq_dec x (used p)); [contradiction|reflexivity]. Qed.

  Lemma draw_unused_spec f : forall p, exists p' r, draw_unused rnd f p = (p', r) /\
    match r with
    | Ok c => exists k, k < f /\ c = color_at (drawn p) k /\ ~ In (CHex c) (used p) /\
        p' = mkProv (CHex c :: used p) (drawn p + 3 * (k + 1)) /\
        forall j, j < k -> In (CHex (color_at (drawn p) j)) (used p)
    | Err e => e = Diverges /\ p' = mkProv (used p) (drawn p + 3 * f) /\ forall j, j < f -> In (CHex (color_at (drawn p) j)) (used p)
    end.
  Proof.
    induction f as [|f IH]; intros p.
    - exists p, (Err Diverges). split; [reflexivity|]. split; [reflexivity|]. split; [|intros; lia].
      destruct p; cbn. f_equal; lia.
    - cbn [draw_unused generate_random_color].
      set (c := to_hex (rnd (drawn p)) (rnd (drawn p + 1)) (rnd (drawn p + 2))).
      assert (Ec : c = color_at (drawn p) 0) by (unfold c, color_at; rewrite Nat.mul_0_r, Nat.add_0_r; reflexivity).
      cbn [used].
      assert (Sh : forall k, color_at (drawn p + 3) k = color_at (drawn p) (S k)).
      { intros k. unfold color_at. replace (drawn p + 3 + 3 * k) with (drawn p + 3 * S k) by lia. reflexivity. }
      destruct (in_dec cobj_eq_dec (CHex c) (used p)) as [Hin|Hni].
      + destruct (IH (mkProv (used p) (drawn p + 3))) as (p' & r & E & Hr). exists p', r. split; [exact E|].
        cbn [used drawn] in Hr. destruct r as [c'|e].
        * destruct Hr as (k & Hk & -> & Hni & -> & Hj). exists (S k). rewrite <- Sh. repeat split; auto; try lia.
          -- f_equal. lia.
          -- intros [|j] Hlt; [rewrite <- Ec; exact Hin|]. rewrite <- Sh. apply Hj. lia.
        * destruct Hr as (-> & -> & Hj). repeat split.
          -- f_equal. lia.
          -- intros [|j] Hlt; [rewrite <- Ec; exact Hin|]. rewrite <- Sh. apply Hj. lia.
      + eexists _, _. split; [reflexivity|]. cbn [drawn used]. exists 0. repeat split; auto; try lia.
        rewrite use_new by exact Hni. reflexivity.
  Qed.

  Lemma next_spec p : exists p' r, next_color rnd fuel p = (p', r) /\
    match r with
    | Ok c => N.of_nat (length (used p)) <> (256 ^ 3)%N /\ exists k, k < fuel /\ c = color_at (drawn p) k /\ ~ In (CHex c) (used p) /\
        p' = mkProv (CHex c :: used p) (drawn p + 3 * (k + 1)) /\
        forall j, j < k -> In (CHex (color_at (drawn p) j)) (used p)
    | Err e => used p' = used p /\
        ((e = OverflowError /\ p' = p /\ N.of_nat (length (used p)) = (256 ^ 3)%N) \/
         (e = Diverges /\ N.of_nat (length (used p)) <> (256 ^ 3)%N /\ forall j, j < fuel -> In (CHex (color_at (drawn p) j)) (used p)))
    end.
  Proof.
    unfold next_color. destruct (N.eqb_spec (N.of_nat (length (used p))) (256 ^ 3)) as [E|Hne].
    - exists p, (Err OverflowError). split; [reflexivity|]. auto.
    - destruct (draw_unused_spec fuel p) as (p' & r & E & Hr). exists p', r. split; [exact E|].
      destruct r as [c|e]; [auto|]. destruct Hr as (-> & -> & Hj). split; [reflexivity|]. right. auto.
  Qed.

  (** What a call of next can do, in short. *)
  Lemma next_cases p p' r : next_color rnd fuel p = (p', r) ->
    match r with
    | Ok c => ~ In (CHex c) (used p) /\ used p' = CHex c :: used p
    | Err e => used p' = used p
    end.
  Proof.
    intros E. destruct (next_spec p) as (p1 & r1 & E1 & H). rewrite E in E1. injection E1 as <- <-.
    destruct r as [c|e].
    - destruct H as (_ & k & _ & _ & Hni & -> & _). auto.
    - apply H.
  Qed.

  Lemma next_exact_proof p k c : N.of_nat (length (used p)) <> (256 ^ 3)%N -> k < fuel ->
    components c = Some (rnd (drawn p + 3 * k), rnd (drawn p + 3 * k + 1), rnd (drawn p + 3 * k + 2)) -> is_color c -> bytes rnd ->
    ~ In (CHex c) (used p) ->
    (forall j x, j < k -> is_color x ->
       components x = Some (rnd (drawn p + 3 * j), rnd (drawn p + 3 * j + 1), rnd (drawn p + 3 * j + 2)) -> In (CHex x) (used p)) ->
    next_color rnd fuel p = (mkProv (CHex c :: used p) (drawn p + 3 * (k + 1)), Ok c).
  Proof.
    intros Hlen Hk Hc Hcol Hb Hni Hj.
    assert (Ec : c = color_at (drawn p) k).
    { apply color_of_components in Hcol. destruct Hcol as (r & g & b & Hr & Hg & Hbb & ->).
      destruct (hex_proof r g b) as [_ E]; auto. rewrite E in Hc. injection Hc as -> -> ->. reflexivity. }
    assert (Hj' : forall j, j < k -> In (CHex (color_at (drawn p) j)) (used p)).
    { intros j Hlt. destruct (hex_proof (rnd (drawn p + 3 * j)) (rnd (drawn p + 3 * j + 1)) (rnd (drawn p + 3 * j + 2))) as [A B]; try apply Hb.
      apply (Hj j _ Hlt A B). }
    destruct (next_spec p) as (p' & r & E & H). rewrite E. destruct r as [c'|e].
    - destruct H as (_ & k' & Hk' & -> & Hni' & -> & Hj2).
      assert (k' = k).
      { destruct (lt_eq_lt_dec k' k) as [[Hl| ->]|Hl]; [|reflexivity|].
        - exfalso. apply Hni'. apply Hj'. exact Hl.
        - exfalso. apply Hni. rewrite Ec. apply Hj2. exact Hl. }
      subst k' c. reflexivity.
    - destruct H as [_ [(-> & _ & Hl)|(-> & _ & Hall)]]; [contradiction|].
      exfalso. apply Hni. rewrite Ec. apply Hall. exact Hk.
  Qed.

  (** *** Runs *)
  (** After a run without reset everything taken stays taken. *)
  Lemma do_op_used o p p' x : do_op rnd fuel o p = (p', x) -> o <> Reset -> incl (used p) (used p').
  Proof.
    destruct o; cbn; intros E Hn; try congruence.
    - destruct (next_color rnd fuel p) as [p1 r] eqn:En. injection E as <- <-. apply next_cases in En.
      destruct r; [destruct En as [_ ->]; apply incl_tl, incl_refl|rewrite En; apply incl_refl].
    - injection E as <- <-. unfold use. destruct (in_dec _ _ _); [apply incl_refl|apply incl_tl, incl_refl].
  Qed.

  Lemma do_ops_later os : forall p c, In (CHex c) (used p) ->
    forall j, nth_error (snd (do_ops rnd fuel os p)) j = Some (Some (Ok c)) ->
    exists k, k < j /\ nth_error os k = Some Reset.
  Proof.
    induction os as [|o os IH]; intros p c Hin j Hj; [destruct j; discriminate|].
    cbn [do_ops] in Hj. destruct (do_op rnd fuel o p) as [p' x] eqn:Eo.
    destruct (do_ops rnd fuel os p') as [p'' xs] eqn:Eos. cbn [snd] in Hj.
    assert (Exs : xs = snd (do_ops rnd fuel os p')) by (rewrite Eos; reflexivity).
    destruct j as [|j]; cbn in Hj.
    - exfalso. injection Hj as ->. destruct o; cbn in Eo; try discriminate.
      destruct (next_color rnd fuel p) as [p1 r] eqn:En. injection Eo as <- ->.
      apply next_cases in En. destruct En as [Hni _]. contradiction.
    - destruct (match o with Reset => true | _ => false end) eqn:Er.
      + exists 0. split; [lia|]. destruct o; try discriminate. reflexivity.
      + assert (Hin' : In (CHex c) (used p')).
        { apply (do_op_used _ _ _ _ Eo); [destruct o; discriminate|exact Hin]. }
        rewrite Exs in Hj. destruct (IH _ _ Hin' _ Hj) as (k & Hk & Ek). exists (S k). split; [lia|exact Ek].
  Qed.

  Lemma unique_proof os p i j c : i < j ->
    nth_error (snd (do_ops rnd fuel os p)) i = Some (Some (Ok c)) ->
    nth_error (snd (do_ops rnd fuel os p)) j = Some (Some (Ok c)) ->
    exists k, i < k < j /\ nth_error os k = Some Reset.
  Proof.
    revert p i j. induction os as [|o os IH]; intros p i j Hij Hi Hj; [destruct i; discriminate|].
    cbn [do_ops] in Hi, Hj. destruct (do_op rnd fuel o p) as [p' x] eqn:Eo.
    destruct (do_ops rnd fuel os p') as [p'' xs] eqn:Eos. cbn [snd] in Hi, Hj.
    assert (Exs : xs = snd (do_ops rnd fuel os p')) by (rewrite Eos; reflexivity).
    destruct j as [|j]; [lia|]. destruct i as [|i]; cbn in Hi, Hj.
    - injection Hi as ->. destruct o; cbn in Eo; try discriminate.
      destruct (next_color rnd fuel p) as [p1 r] eqn:En. injection Eo as -> ->.
      apply next_cases in En. destruct En as [_ Hu].
      rewrite Exs in Hj. destruct (do_ops_later _ p' c ltac:(rewrite Hu; left; reflexivity) _ Hj) as (k & Hk & Ek).
      exists (S k). split; [lia|exact Ek].
    - rewrite Exs in Hi, Hj. destruct (IH _ i j ltac:(lia) Hi Hj) as (k & Hk & Ek). exists (S k). split; [lia|exact Ek].
  Qed.
End Random.

(** *** Every colour is handed out before OverflowError *)
Lemma draw_unused_mono rnd f : forall f' p p' c, f <= f' -> draw_unused rnd f p = (p', Ok c) -> draw_unused rnd f' p = (p', Ok c).
Proof.
  induction f as [|f IH]; intros f' p p' c Hle H; [discriminate|].
  destruct f' as [|f']; [lia|]. cbn [draw_unused] in *. destruct (generate_random_color rnd p) as [p1 c1].
  destruct (in_dec cobj_eq_dec (CHex c1) (used p1)); [|exact H]. apply IH; [lia|exact H].
Qed.
Lemma next_mono rnd f f' p p' c : f <= f' -> next_color rnd f p = (p', Ok c) -> next_color rnd f' p = (p', Ok c).
Proof.
  intros Hle H. unfold next_color in *. destruct (_ =? _)%N; [discriminate|]. apply draw_unused_mono with f; assumption.
Qed.

Lemma next_free rnd p : fair rnd -> (N.of_nat (length (used p)) < 256 ^ 3)%N ->
  exists f0 c p', ~ In (CHex c) (used p) /\ used p' = CHex c :: used p /\ forall f, f0 <= f -> next_color rnd f p = (p', Ok c).
Proof.
  intros Hf Hlen. destruct (free_color _ Hlen) as (c & Hc & Hni).
  apply color_of_components in Hc. destruct Hc as (r & g & b & Hr & Hg & Hb & ->).
  destruct (Hf (drawn p) r g b Hr Hg Hb) as (k & E1 & E2 & E3).
  destruct (next_spec rnd (S k) p) as (p' & res & E & H).
  destruct res as [c'|e].
  - destruct H as (_ & k' & _ & _ & Hni' & Hp' & _). exists (S k), c', p'. split; [exact Hni'|]. split; [rewrite Hp'; reflexivity|].
    intros f Hle. apply next_mono with (S k); assumption.
  - exfalso. destruct H as [_ [(_ & _ & Hl)|(_ & _ & Hall)]].
    + rewrite Hl in Hlen. apply N.lt_irrefl in Hlen. exact Hlen.
    + apply Hni. specialize (Hall k ltac:(lia)). unfold color_at in Hall. rewrite E1, E2, E3 in Hall. exact Hall.
Qed.

Lemma nexts_ok rnd n : fair rnd -> forall p, (N.of_nat (length (used p) + n) <= 256 ^ 3)%N ->
  exists f0 cs p', used p' = rev (map CHex cs) ++ used p /\ length cs = n /\ NoDup cs /\
    (forall c, In c cs -> ~ In (CHex c) (used p)) /\
    forall f, f0 <= f -> do_ops rnd f (repeat Next n) p = (p', map (fun c => Some (Ok c)) cs).
Proof.
  intros Hf. induction n as [|n IH]; intros p Hlen.
  - exists 0, [], p. repeat split; auto. constructor.
  - destruct (next_free rnd p Hf) as (f1 & c & p1 & Hni & Hu & Hn1).
    { revert Hlen. generalize (256 ^ 3)%N. intros; lia. }
    destruct (IH p1) as (f2 & cs & p' & Hu' & Hl & Hnd & Hfr & Hn2).
    { rewrite Hu. cbn [length]. revert Hlen. generalize (256 ^ 3)%N. intros; lia. }
    exists (Nat.max f1 f2), (c :: cs), p'. repeat split.
    + rewrite Hu', Hu. cbn [map rev]. rewrite <- app_assoc. reflexivity.
    + cbn. rewrite Hl. reflexivity.
    + constructor; [|exact Hnd]. intros Hin. apply (Hfr c Hin). rewrite Hu. left. reflexivity.
    + intros c' [<-|Hin]; [exact Hni|]. intros H. apply (Hfr c' Hin). rewrite Hu. right. exact H.
    + intros f Hle. cbn [repeat do_ops do_op]. rewrite Hn1 by lia. rewrite Hn2 by lia. reflexivity.
Qed.

Lemma all_proof rnd start n : fair rnd -> (N.of_nat n <= 256 ^ 3)%N ->
  exists f0 cs p, length cs = n /\ NoDup cs /\ forall f, f0 <= f ->
    do_ops rnd f (repeat Next n) (new_provider start) = (p, map (fun c => Some (Ok c)) cs) /\
    (N.of_nat n = (256 ^ 3)%N -> snd (next_color rnd f p) = Err OverflowError).
Proof.
  intros Hf Hn. destruct (nexts_ok rnd n Hf (new_provider start)) as (f0 & cs & p & Hu & Hl & Hnd & _ & H); [exact Hn|].
  exists f0, cs, p. repeat split; auto.
  intros Hn'. unfold next_color. rewrite Hu, app_length, rev_length, map_length, Hl. cbn [new_provider used length].
  rewrite Nat.add_0_r, Hn', N.eqb_refl. reflexivity.
Qed.

Lemma do_ops_app rnd f os1 : forall os2 p, do_ops rnd f (os1 ++ os2) p =
  let '(p1, x1) := do_ops rnd f os1 p in let '(p2, x2) := do_ops rnd f os2 p1 in (p2, x1 ++ x2).
Proof.
  induction os1 as [|o os IH]; intros os2 p; cbn [app do_ops].
  - destruct (do_ops rnd f os2 p); reflexivity.
  - destruct (do_op rnd f o p) as [p1 x]. rewrite IH. destruct (do_ops rnd f os p1) as [p2 xs].
    destruct (do_ops rnd f os2 p2) as [p3 ys]. reflexivity.
Qed.
Lemma repeat_snoc {A} (x : A) n : repeat x (S n) = repeat x n ++ [x].
Proof. induction n; [reflexivity|]. cbn [repeat app] in *. rewrite <- IHn. reflexivity. Qed.

(** A source in which every colour comes again and again: r g b 0 r g b 0 r g b 0, for all colours in turn. *)
Definition round_robin (i : nat) : N :=
  let q := (N.of_nat (i / 12))%N in
  match Nat.modulo (i mod 12) 4 with
  | 0 => ((q / 65536) mod 256)%N
  | 1 => ((q / 256) mod 256)%N
  | 2 => (q mod 256)%N
  | _ => 0%N
  end.
Lemma round_robin_at q o r : o < 12 -> o mod 4 = r -> round_robin (12 * q + o) =
  match r with 0 => ((N.of_nat q / 65536) mod 256)%N | 1 => ((N.of_nat q / 256) mod 256)%N | 2 => (N.of_nat q mod 256)%N | _ => 0%N end.
Proof.
  intros Ho Hr. unfold round_robin. replace ((12 * q + o) / 12) with q by (apply Nat.div_unique with o; lia).
  replace ((12 * q + o) mod 12) with o by (apply Nat.mod_unique with q; lia). rewrite Hr. reflexivity.
Qed.
Lemma round_robin_bytes : bytes round_robin.
Proof. intros n. unfold round_robin. destruct (Nat.modulo (n mod 12) 4) as [|[|[|k]]]; try (apply N.mod_lt; lia). lia. Qed.
Lemma round_robin_fair : fair round_robin.
Proof.
  intros n r g b Hr Hg Hb.
  set (v := (65536 * r + 256 * g + b)%N).
  assert (Hm : exists q, n <= 12 * q /\ ((N.of_nat q / 65536) mod 256 = r)%N /\ ((N.of_nat q / 256) mod 256 = g)%N /\ (N.of_nat q mod 256 = b)%N).
  { exists (N.to_nat (16777216 * N.of_nat n + v)). rewrite N2Nat.id. unfold v. split; [lia|]. split; [|split].
    - replace ((16777216 * N.of_nat n + (65536 * r + 256 * g + b)) / 65536)%N with (256 * N.of_nat n + r)%N
        by (apply N.div_unique with (256 * g + b)%N; lia).
      symmetry. apply N.mod_unique with (N.of_nat n); lia.
    - replace ((16777216 * N.of_nat n + (65536 * r + 256 * g + b)) / 256)%N with (65536 * N.of_nat n + 256 * r + g)%N
        by (apply N.div_unique with b; lia).
      symmetry. apply N.mod_unique with (256 * N.of_nat n + r)%N; lia.
    - symmetry. apply N.mod_unique with (65536 * N.of_nat n + 256 * r + g)%N; lia. }
  destruct Hm as (q & Hq & E1 & E2 & E3).
  assert (Hk : exists k o, n + 3 * k = 12 * q + o /\ (o = 0 \/ o = 4 \/ o = 8)).
  { pose proof (Nat.mod_upper_bound (12 * q - n) 3 ltac:(lia)) as Hb3. pose proof (Nat.div_mod (12 * q - n) 3 ltac:(lia)) as Hd.
    set (z := (12 * q - n) mod 3) in *. set (d := (12 * q - n) / 3) in *. clearbody z d. destruct z as [|[|[|z]]]; [| | |lia].
    - exists d, 0. lia.
    - exists (d + 3), 8. lia.
    - exists (d + 2), 4. lia. }
  destruct Hk as (k & o & Ek & Ho). exists k. rewrite Ek.
  rewrite <- !Nat.add_assoc.
  destruct Ho as [->|[->| ->]].
  - rewrite (round_robin_at q 0 0), (round_robin_at q (0 + 1) 1), (round_robin_at q (0 + 2) 2); auto; lia.
  - rewrite (round_robin_at q 4 0), (round_robin_at q (4 + 1) 1), (round_robin_at q (4 + 2) 2); auto; lia.
  - rewrite (round_robin_at q 8 0), (round_robin_at q (8 + 1) 1), (round_robin_at q (8 + 2) 2); auto; lia.
Qed.

Lemma reserve_proof : exists rnd n fuel c, bytes rnd /\ fair rnd /\ is_color c /\
  let outs := snd (do_ops rnd fuel (Reserve :: repeat Next n) (new_provider 0)) in
  nth_error outs n = Some (Some (Err OverflowError)) /\ ~ In (Some (Ok c)) outs.
Proof.
  assert (EM : N.of_nat (N.to_nat (256 ^ 3)) = (256 ^ 3)%N) by apply N2Nat.id.
  assert (HM : exists m, N.to_nat (256 ^ 3) = S m).
  { rewrite pow3 in *. clear EM. exists (N.to_nat 16777215). rewrite <- N2Nat.inj_succ. reflexivity. }
  destruct HM as (m & Hm). rewrite Hm in EM.
  set (p0 := use (CTuple 0 0 0) (new_provider 0)).
  assert (Hp0 : used p0 = [CTuple 0 0 0]) by reflexivity.
  destruct (nexts_ok round_robin m round_robin_fair p0) as (f0 & cs & p & Hu & Hl & Hnd & _ & H).
  { rewrite <- EM, Hp0. cbn [length]. lia. }
  destruct (free_color (map CHex cs)) as (c & Hc & Hni).
  { rewrite map_length, Hl, <- EM. lia. }
  exists round_robin, (S m), f0, c.
  split; [apply round_robin_bytes|]. split; [apply round_robin_fair|]. split; [exact Hc|].
  rewrite repeat_snoc.
  assert (Hnext : next_color round_robin f0 p = (p, Err OverflowError)).
  { unfold next_color. rewrite Hu, app_length, rev_length, map_length, Hl, Hp0. cbn [length].
    rewrite Nat.add_1_r, EM, N.eqb_refl. reflexivity. }
  cbn [do_ops do_op]. fold p0. rewrite do_ops_app, H by lia. cbn [do_ops do_op]. rewrite Hnext. cbn zeta beta iota. cbn [snd].
  split.
  - cbn [nth_error]. rewrite nth_error_app2 by (rewrite map_length, Hl; lia). rewrite map_length, Hl, Nat.sub_diag. reflexivity.
  - intros Hin. cbn [In] in Hin. destruct Hin as [Hin|Hin]; [discriminate|]. apply in_app_or in Hin. destruct Hin as [Hin|[Hin|[]]]; [|discriminate].
    apply in_map_iff in Hin. destruct Hin as (c' & E & Hin). injection E as ->. apply Hni. apply in_map. exact Hin.
Qed.
