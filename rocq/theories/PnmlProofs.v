(** Lemmas for C83. *)
From Coq Require Import Permutation Sorting.Sorted.
From Verif Require Import Py PyFacts HashModel XesModel XesProofs EqProofs RXesModel RXesSpec RXesProofs RInfoSpec ReplayModel PnmlModel PnmlSpec.

Lemma mapM_all {A B} (f : A -> result B) l : (forall x, In x l -> exists y, f x = Ok y) <-> exists ys, mapM f l = Ok ys.
Proof.
  induction l as [|x l IH]; cbn [mapM].
  - split; [eauto|intros _ x []].
  - split.
    + intros H. destruct (H x (or_introl eq_refl)) as [y ->]. destruct (proj1 IH) as [ys ->]; [intros z Hz; apply H; right; exact Hz|]. cbn. eauto.
    + intros [ys H]. destruct (f x) as [y|] eqn:E; [|discriminate]. cbn in H. destruct (mapM f l) as [zs|] eqn:E2; [|discriminate]. intros z [<-|Hz]; [eauto|]. apply IH; eauto.
Qed.
Lemma mapM_err {A B} (f : A -> result B) (P : exc -> Prop) l : (forall x e, In x l -> f x = Err e -> P e) -> forall e, mapM f l = Err e -> P e.
Proof.
  induction l as [|x l IH]; intros H e; cbn [mapM]; [discriminate|]. destruct (f x) as [y|e'] eqn:E; cbn.
  - destruct (mapM f l) as [ys|e'] eqn:E2; cbn; [discriminate|]. intros [= <-]. apply IH; [|reflexivity]. intros z e2 Hz. apply H. right. exact Hz.
  - intros [= <-]. apply (H x); [left; reflexivity|exact E].
Qed.
Lemma keyed {A B} (key : A -> pystr) (g : A -> B) (key' : B -> pystr) l : (forall x, In x l -> key' (g x) = key x) ->
  Permutation (map (fun p => g (snd p)) (sort_by_first (map (fun x => (key x, x)) l))) (map g l) /\
  sorted_on key' (map (fun p => g (snd p)) (sort_by_first (map (fun x => (key x, x)) l))).
Proof.
  intros H. assert (P := sort_perm (map (fun x => (key x, x)) l)). assert (S := sort_sorted (map (fun x => (key x, x)) l)).
  set (s := sort_by_first (map (fun x => (key x, x)) l)) in *. split.
  - apply Permutation_trans with (map (fun p => g (snd p)) (map (fun x => (key x, x)) l)); [apply Permutation_map, Permutation_sym, P|]. rewrite map_map. apply Permutation_refl.
  - assert (K : forall p, In p s -> key' (g (snd p)) = fst p).
    { intros p Hp. apply (Permutation_in _ (Permutation_sym P)) in Hp. apply in_map_iff in Hp. destruct Hp as (x & <- & Hx). apply H, Hx. }
    clear P. unfold sorted_on. induction S as [|p s S IH F]; cbn [map]; [constructor|]. constructor.
    + apply IH. intros q Hq. apply K. right. exact Hq.
    + apply Forall_forall. intros y Hy. apply in_map_iff in Hy. destruct Hy as (q & <- & Hq). rewrite Forall_forall in F. rewrite !K by (cbn; auto). apply F, Hq.
Qed.
Lemma keyed_unique {A} (key : A -> pystr) l : forall l', Permutation l l' -> NoDup (map key l) -> sorted_on key l -> sorted_on key l' -> l = l'.
Proof.
  intros l' P N S S'. assert (E : map key l = map key l').
  { apply sorted_unique; [| |apply Permutation_map, P].
    - clear -S. unfold sorted_on in S. induction S as [|x l S IH F]; cbn; constructor; [exact IH|]. apply Forall_forall. intros y Hy. apply in_map_iff in Hy. destruct Hy as (z & <- & Hz). rewrite Forall_forall in F. apply F, Hz.
    - clear -S'. unfold sorted_on in S'. induction S' as [|x l S IH F]; cbn; constructor; [exact IH|]. apply Forall_forall. intros y Hy. apply in_map_iff in Hy. destruct Hy as (z & <- & Hz). rewrite Forall_forall in F. apply F, Hz. }
  clear S S'. assert (I : forall x, In x l' -> In x l) by (intros x; apply Permutation_in, Permutation_sym, P). clear P.
  revert l' E I. induction l as [|x l IH]; intros [|y l'] E I; try discriminate; [reflexivity|]. cbn [map] in *. injection E as E1 E2. apply NoDup_cons_iff in N. destruct N as [N1 N2].
  assert (x = y). { destruct (I y (or_introl eq_refl)) as [H|H]; [exact H|]. exfalso. apply N1. rewrite E1. apply in_map, H. }
  subst y. f_equal. apply IH; [exact N2|exact E2|]. intros z Hz. destruct (I z (or_intror Hz)) as [<-|H]; [|exact H]. exfalso. apply N1. rewrite E2. apply in_map, Hz.
Qed.

Section Net.
  Variables (net : pnet) (data : N -> option pystr) (names : bool).
  Notation there := (fun a => dget N.eq_dec (n_places net) (arc_place a) <> None).

  Lemma net_place_ok a : there a -> net_place net (arc_place a) = Ok (arc_place a, place_name net (arc_place a)).
  Proof. unfold net_place, place_name. destruct (dget _ _ _); [reflexivity|congruence]. Qed.
  Lemma net_place_err i e : net_place net i = Err e -> e = AssertionErr.
  Proof. unfold net_place, rpanic. destruct (dget _ _ _); [discriminate|congruence]. Qed.
  Definition ins_of (t : ptrans) : list narc :=
    map (fun p => mkNArc (arc_place (snd p)) t true (arc_id (snd p))) (sort_by_first (map (fun a => (id_text names net (mkNArc (arc_place a) t true (arc_id a)), a)) (tr_in t))).
  Definition outs_of (t : ptrans) : list narc :=
    map (fun p => mkNArc (arc_place (snd p)) t false (arc_id (snd p))) (sort_by_first (map (fun a => (id_text names net (mkNArc (arc_place a) t false (arc_id a)), a)) (tr_out t))).
  Lemma patch_ok arcs nc (key : parc -> pystr) : (forall a, In a arcs -> (if names then nc a else Ok (show_id (arc_id a))) = Ok (key a)) ->
    patch_arcs_list names arcs nc = Ok (sort_by_first (map (fun a => (key a, a)) arcs)).
  Proof.
    intros H. unfold patch_arcs_list. rewrite (mapM_ok _ (fun a => (key a, a))); [reflexivity|]. intros a Ha. rewrite H by exact Ha. reflexivity.
  Qed.
  Lemma in_sorted {A} (key : A -> pystr) l p : In p (sort_by_first (map (fun a => (key a, a)) l)) -> In (snd p) l /\ fst p = key (snd p).
  Proof. intros H. apply (Permutation_in _ (Permutation_sym (sort_perm _))) in H. apply in_map_iff in H. destruct H as (x & <- & Hx). auto. Qed.
  Lemma incoming_ok t : (forall a, In a (tr_in t) -> there a) -> write_incoming_arcs net names t = Ok (flat_map tags (map (arc_element names net) (ins_of t))).
  Proof.
    intros H. unfold write_incoming_arcs. set (key := fun a => id_text names net (mkNArc (arc_place a) t true (arc_id a))).
    rewrite (patch_ok _ _ key).
    2:{ intros a Ha. rewrite net_place_ok by auto. unfold key. destruct names; reflexivity. }
    cbn [bind]. unfold ins_of. fold key.
    rewrite (mapM_ok _ (fun p => tags (arc_element names net (mkNArc (arc_place (snd p)) t true (arc_id (snd p)))))).
    - cbn [bind]. rewrite map_map, flat_map_concat_map, map_map. reflexivity.
    - intros p Hp. destruct (in_sorted key (tr_in t) p Hp) as [H1 H2]. rewrite net_place_ok by auto. cbn [bind]. rewrite H2. unfold key. destruct names; reflexivity.
  Qed.
  Lemma outgoing_ok t : (forall a, In a (tr_out t) -> there a) -> write_outgoing_arcs net names t = Ok (flat_map tags (map (arc_element names net) (outs_of t))).
  Proof.
    intros H. unfold write_outgoing_arcs. set (key := fun a => id_text names net (mkNArc (arc_place a) t false (arc_id a))).
    rewrite (patch_ok _ _ key).
    2:{ intros a Ha. rewrite net_place_ok by auto. unfold key. destruct names; reflexivity. }
    cbn [bind]. unfold outs_of. fold key.
    rewrite (mapM_ok _ (fun p => tags (arc_element names net (mkNArc (arc_place (snd p)) t false (arc_id (snd p)))))).
    - cbn [bind]. rewrite map_map, flat_map_concat_map, map_map. reflexivity.
    - intros p Hp. destruct (in_sorted key (tr_out t) p Hp) as [H1 H2]. rewrite net_place_ok by auto. cbn [bind]. rewrite H2. unfold key. destruct names; reflexivity.
  Qed.
  Lemma second_there {B} (f : pystr * parc -> N * pystr -> result B) l arcs nc : patch_arcs_list names arcs nc = Ok l -> (exists ys, mapM (fun na : pystr * parc => bind (net_place net (arc_place (snd na))) (f na)) l = Ok ys) -> forall a, In a arcs -> there a.
  Proof.
    intros H1 H2 a Ha. unfold patch_arcs_list in H1. destruct (mapM _ arcs) as [ys|] eqn:E; [|discriminate]. cbn in H1. injection H1 as <-.
    assert (Hs : exists n, In (n, a) ys).
    { apply mapM_ok_inv in E. clear -E Ha. induction E as [|x y xs ys E1 E IH]; [destruct Ha|]. destruct Ha as [<-|Ha].
      - destruct (if names then nc x else Ok (show_id (arc_id x))) as [n|]; [|discriminate]. cbn in E1. injection E1 as <-. exists n. left. reflexivity.
      - destruct (IH Ha) as [n Hn]. exists n. right. exact Hn. }
    destruct Hs as [n Hn]. apply (Permutation_in _ (sort_perm ys)) in Hn. destruct (proj2 (mapM_all _ _) H2 (n, a) Hn) as [y Hy]. cbn [snd] in Hy. unfold net_place in Hy. intros K. rewrite K in Hy. discriminate.
  Qed.
  Lemma incoming_there t l : write_incoming_arcs net names t = Ok l -> forall a, In a (tr_in t) -> there a.
  Proof.
    unfold write_incoming_arcs. destruct (patch_arcs_list _ _ _) as [s|] eqn:E; [|discriminate]. cbn [bind]. intros H.
    match goal with H : bind (mapM ?f s) _ = _ |- _ => destruct (mapM f s) as [ys|] eqn:E2; [|discriminate] end. exact (second_there _ s _ _ E (ex_intro _ ys E2)).
  Qed.
  Lemma outgoing_there t l : write_outgoing_arcs net names t = Ok l -> forall a, In a (tr_out t) -> there a.
  Proof.
    unfold write_outgoing_arcs. destruct (patch_arcs_list _ _ _) as [s|] eqn:E; [|discriminate]. cbn [bind]. intros H.
    match goal with H : bind (mapM ?f s) _ = _ |- _ => destruct (mapM f s) as [ys|] eqn:E2; [|discriminate] end. exact (second_there _ s _ _ E (ex_intro _ ys E2)).
  Qed.
  Lemma patch_err arcs nc e : (forall a e, In a arcs -> nc a = Err e -> e = AssertionErr) -> patch_arcs_list names arcs nc = Err e -> e = AssertionErr.
  Proof.
    intros H. unfold patch_arcs_list. destruct (mapM _ arcs) as [|e'] eqn:E; [discriminate|]. cbn. intros [= <-]. revert E. apply (mapM_err _ (fun e => e = AssertionErr)). intros a e2 Ha K. destruct names; [|discriminate].
    destruct (nc a) as [|e3] eqn:E; [discriminate|]. cbn in K. injection K as <-. apply (H a _ Ha E).
  Qed.
  Lemma bound_err {B} i (g : N * pystr -> B) e : bind (net_place net i) (fun p => Ok (g p)) = Err e -> e = AssertionErr.
  Proof. destruct (net_place net i) as [|e'] eqn:E; [discriminate|]. cbn. intros [= <-]. apply (net_place_err _ _ E). Qed.
  Lemma incoming_err t e : write_incoming_arcs net names t = Err e -> e = AssertionErr.
  Proof.
    unfold write_incoming_arcs. destruct (patch_arcs_list _ _ _) as [s|e'] eqn:E; cbn [bind].
    - match goal with |- bind (mapM ?f s) _ = _ -> _ => destruct (mapM f s) as [ys|e'] eqn:E2; [discriminate|] end. cbn. intros [= <-]. revert E2. apply (mapM_err _ (fun e => e = AssertionErr)). intros x e2 _. apply bound_err.
    - intros [= <-]. revert E. apply patch_err. intros a e2 _. apply bound_err.
  Qed.
  Lemma outgoing_err t e : write_outgoing_arcs net names t = Err e -> e = AssertionErr.
  Proof.
    unfold write_outgoing_arcs. destruct (patch_arcs_list _ _ _) as [s|e'] eqn:E; cbn [bind].
    - match goal with |- bind (mapM ?f s) _ = _ -> _ => destruct (mapM f s) as [ys|e'] eqn:E2; [discriminate|] end. cbn. intros [= <-]. revert E2. apply (mapM_err _ (fun e => e = AssertionErr)). intros x e2 _. apply bound_err.
    - intros [= <-]. revert E. apply patch_err. intros a e2 _. apply bound_err.
  Qed.

  Variable ord : nat -> forall A : Type, list A -> list A.
  Hypothesis O : any_order ord.
  Definition ps_of : list (N * pystr) := map snd (sort_by_first (map (fun p => (snd p, p)) (ord 0 _ (n_places net)))).
  Definition kids_of : list xml :=
    map (place_element names) ps_of ++ map (transition_element names data) (ordered_transitions ord net) ++
    map (arc_element names net) (concat (map (fun t => ins_of t ++ outs_of t) (ordered_transitions ord net))).
  Lemma ordered_perm : Permutation (ordered_transitions ord net) (n_trans net) /\ sorted_on tr_name (ordered_transitions ord net).
  Proof.
    unfold ordered_transitions. destruct (keyed tr_name (fun t => t) tr_name (ord 1 _ (n_trans net)) (fun _ _ => eq_refl)) as [P S]. split; [|exact S].
    eapply Permutation_trans; [exact P|]. rewrite map_id. apply O.
  Qed.
  Lemma ps_perm : Permutation ps_of (n_places net) /\ sorted_on snd ps_of.
  Proof.
    unfold ps_of. destruct (keyed (fun p : N * pystr => snd p) (fun t => t) snd (ord 0 _ (n_places net)) (fun _ _ => eq_refl)) as [P S]. split; [|exact S].
    eapply Permutation_trans; [exact P|]. rewrite map_id. apply O.
  Qed.
  Lemma flat_tags l l' : flat_map tags (l ++ l') = flat_map tags l ++ flat_map tags l'.
  Proof. apply flat_map_app. Qed.
  Lemma there_arcs : places_there net -> forall t, In t (n_trans net) -> (forall a, In a (tr_in t) -> there a) /\ (forall a, In a (tr_out t) -> there a).
  Proof.
    intros H t Ht. split; intros a Ha.
    - apply (H (mkNArc (arc_place a) t true (arc_id a))). unfold net_arcs. apply in_flat_map. exists t. split; [exact Ht|]. apply in_or_app. left. unfold arcs_in. apply in_map_iff. eauto.
    - apply (H (mkNArc (arc_place a) t false (arc_id a))). unfold net_arcs. apply in_flat_map. exists t. split; [exact Ht|]. apply in_or_app. right. unfold arcs_out. apply in_map_iff. eauto.
  Qed.
  Lemma places_tags : write_places ord net names = flat_map tags (map (place_element names) ps_of).
  Proof. unfold write_places, ps_of. rewrite map_map, !flat_map_concat_map, map_map. f_equal. Qed.
  Lemma transitions_tags : write_transitions ord net data names = flat_map tags (map (transition_element names data) (ordered_transitions ord net)).
  Proof.
    unfold write_transitions. rewrite !flat_map_concat_map, map_map. f_equal. apply map_ext. intros t. unfold transition_element, element. cbn [tags]. destruct (data (tr_id t)); reflexivity.
  Qed.
  Lemma serialize_ok : places_there net -> serialize_to_pnml ord net data names = Ok (tags (pnml kids_of)).
  Proof.
    intros H. unfold serialize_to_pnml, write_arcs.
    rewrite (mapM_ok _ (fun t => flat_map tags (map (arc_element names net) (ins_of t ++ outs_of t)))).
    - cbn [bind]. f_equal. unfold pnml, kids_of. rewrite places_tags, transitions_tags. unfold element. cbn [tags flat_map]. rewrite app_nil_r. do 2 f_equal.
      cbn [app]. f_equal. rewrite !flat_tags. f_equal. f_equal. f_equal. clear. induction (ordered_transitions ord net) as [|t l IH]; [reflexivity|]. cbn [map concat]. rewrite !map_app, !flat_tags, IH. reflexivity.
    - intros t Ht. apply (Permutation_in _ (proj1 ordered_perm)) in Ht. destruct (there_arcs H t Ht) as [H1 H2]. rewrite incoming_ok, outgoing_ok by assumption. cbn [bind]. rewrite map_app, flat_tags. reflexivity.
  Qed.
  Lemma serialize_there toks : serialize_to_pnml ord net data names = Ok toks -> places_there net.
  Proof.
    unfold serialize_to_pnml, write_arcs. match goal with |- bind (bind (mapM ?f ?l) _) _ = _ -> _ => destruct (mapM f l) as [ys|] eqn:E; [|discriminate] end. intros _.
    assert (K := proj2 (mapM_all _ _) (ex_intro _ ys E)). intros a Ha. apply in_flat_map in Ha. destruct Ha as (t & Ht & Ha). apply (Permutation_in _ (Permutation_sym (proj1 ordered_perm))) in Ht.
    destruct (K t Ht) as [y Hy]. destruct (write_incoming_arcs net names t) as [i|] eqn:E1; [|discriminate]. cbn [bind] in Hy. destruct (write_outgoing_arcs net names t) as [o|] eqn:E2; [|discriminate].
    apply in_app_or in Ha. destruct Ha as [Ha|Ha]; apply in_map_iff in Ha; destruct Ha as (b & <- & Hb); cbn [na_place].
    - apply (incoming_there t i E1 b Hb).
    - apply (outgoing_there t o E2 b Hb).
  Qed.
  Lemma serialize_err e : serialize_to_pnml ord net data names = Err e -> e = AssertionErr.
  Proof.
    unfold serialize_to_pnml, write_arcs. match goal with |- bind (bind (mapM ?f ?l) _) _ = _ -> _ => destruct (mapM f l) as [ys|e'] eqn:E; [discriminate|] end. cbn. intros [= <-]. revert E. apply (mapM_err _ (fun e => e = AssertionErr)).
    intros t e _. destruct (write_incoming_arcs net names t) as [i|e1] eqn:E1; cbn [bind]; [|intros [= <-]; apply (incoming_err t _ E1)]. destruct (write_outgoing_arcs net names t) as [o|e1] eqn:E2; [discriminate|]. intros [= <-]. apply (outgoing_err t _ E2).
  Qed.
  Lemma ins_ok t : Permutation (ins_of t) (arcs_in t) /\ sorted_on (id_text names net) (ins_of t).
  Proof. apply (keyed (fun a => id_text names net (mkNArc (arc_place a) t true (arc_id a))) (fun a => mkNArc (arc_place a) t true (arc_id a)) (id_text names net) (tr_in t)). reflexivity. Qed.
  Lemma outs_ok t : Permutation (outs_of t) (arcs_out t) /\ sorted_on (id_text names net) (outs_of t).
  Proof. apply (keyed (fun a => id_text names net (mkNArc (arc_place a) t false (arc_id a))) (fun a => mkNArc (arc_place a) t false (arc_id a)) (id_text names net) (tr_out t)). reflexivity. Qed.
  Lemma kids_content : content names net data kids_of.
  Proof.
    exists ps_of, (ordered_transitions ord net), (map (fun t => ins_of t ++ outs_of t) (ordered_transitions ord net)). destruct ps_perm as [P1 P2]. destruct ordered_perm as [T1 T2].
    split; [exact P1|]. split; [exact P2|]. split; [exact T1|]. split; [exact T2|]. split; [|reflexivity].
    clear. induction (ordered_transitions ord net) as [|t l IH]; cbn [map]; constructor; [|exact IH]. exists (ins_of t), (outs_of t). split; [reflexivity|]. destruct (ins_ok t), (outs_ok t). auto.
  Qed.
End Net.
