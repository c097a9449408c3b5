(** Proofs about the fuzzy miner: clusters as nodes. *)
From Coq Require Import QArith Permutation Relations.
From Verif Require Import Py PyFacts InfoModel InfoSpec InfoProofs ReplayModel RInfoModel RInfoSpec RInfoProofs AlphaModel HeurModel HeurSpec HeurProofs2 FuzzyModel FuzzySpec FuzzyProofs1 FuzzyProofs2 FuzzyProofs3 FuzzyProofs4.
Open Scope nat_scope.

Lemma fNoDup_app {A} (l l' : list A) : NoDup l -> NoDup l' -> (forall x, In x l -> In x l' -> False) -> NoDup (l ++ l').
Proof.
  induction l as [|x l IH]; intros H H' D; [exact H'|]. inversion H as [|? ? Hx Hl]; subst. cbn [app]. constructor.
  - intros K. apply in_app_or in K. destruct K as [K|K]; [auto|]. apply (D x); [left; reflexivity|exact K].
  - apply IH; auto. intros y Hy Hy'. apply (D y); [right; exact Hy|exact Hy'].
Qed.
(** ** Dictionaries *)
Lemma fdget_perm {V} (l l' : dict N V) x : NoDup (dkeys l) -> Permutation l' l -> dget N.eq_dec l' x = dget N.eq_dec l x.
Proof.
  intros H P. assert (H' : NoDup (dkeys l')) by (apply (Permutation_NoDup (l := dkeys l)); [apply Permutation_map, Permutation_sym, P|exact H]).
  destruct (dget N.eq_dec l' x) as [v|] eqn:E.
  - symmetry. apply In_dget; [exact H|]. apply (Permutation_in _ P), (dget_In N.eq_dec), E.
  - symmetry. apply dget_None. apply dget_None in E. intros K. apply E. apply (Permutation_in (l := dkeys l)); [apply Permutation_map, Permutation_sym, P|exact K].
Qed.
Lemma fdels {V} l : forall m : dict N V, NoDup (dkeys m) -> NoDup (dkeys (fold_left (ddel N.eq_dec) l m)) /\
  forall y, dget N.eq_dec (fold_left (ddel N.eq_dec) l m) y = if id_mem y l then None else dget N.eq_dec m y.
Proof.
  induction l as [|x l IH]; intros m Hm; cbn [fold_left]; [auto|]. destruct (IH (ddel N.eq_dec m x)) as [H1 H2]; [apply ddel_NoDup, Hm|]. split; [exact H1|]. intros y. rewrite H2, dget_ddel by exact Hm.
  unfold id_mem. destruct (in_dec N.eq_dec y l), (in_dec N.eq_dec y (x :: l)), (N.eq_dec x y); try reflexivity; cbn [In] in *; tauto.
Qed.
Lemma fdget_map {V W} (f : V -> W) (m : dict N V) y : dget N.eq_dec (map (fun kc => (fst kc, f (snd kc))) m) y = option_map f (dget N.eq_dec m y).
Proof. induction m as [|[k v] m IH]; cbn [map dget fst snd]; [reflexivity|]. destruct (N.eq_dec y k); [reflexivity|exact IH]. Qed.
Lemma fkeys_map {V W} (f : V -> W) (m : dict N V) : dkeys (map (fun kc => (fst kc, f (snd kc))) m) = dkeys m.
Proof. unfold dkeys. rewrite map_map. reflexivity. Qed.
Lemma fsets {V} (l : dict N V) : NoDup (dkeys l) -> forall m, NoDup (dkeys m) -> NoDup (dkeys (fold_left (fun m ne => dset N.eq_dec m (fst ne) (snd ne)) l m)) /\
  forall y, dget N.eq_dec (fold_left (fun m ne => dset N.eq_dec m (fst ne) (snd ne)) l m) y = match dget N.eq_dec l y with Some e => Some e | None => dget N.eq_dec m y end.
Proof.
  induction l as [|[x e] l IH]; intros Hl m Hm; cbn [fold_left fst snd dget]; [auto|]. inversion Hl as [|? ? Hx Hl']; subst. destruct (IH Hl' (dset N.eq_dec m x e)) as [H1 H2]; [apply dset_NoDup, Hm|]. split; [exact H1|]. intros y. rewrite H2, dget_dset.
  destruct (N.eq_dec y x) as [->|Hne].
  - apply (dget_None N.eq_dec) in Hx. rewrite Hx. destruct (N.eq_dec x x); congruence.
  - destruct (N.eq_dec x y); [congruence|reflexivity].
Qed.
Lemma fincoming (l : dict N (option Q)) id : NoDup (dkeys l) -> forall cs, NoDup (dkeys cs) ->
  let r := fold_left (fun cs ne => match dget N.eq_dec cs (fst ne) with
                                   | Some c => dset N.eq_dec cs (fst ne) (dset N.eq_dec c id (snd ne))
                                   | None => cs
                                   end) l cs in
  NoDup (dkeys r) /\ forall x, dget N.eq_dec r x = match dget N.eq_dec cs x with None => None | Some c => match dget N.eq_dec l x with Some e => Some (dset N.eq_dec c id e) | None => Some c end end.
Proof.
  cbn zeta. induction l as [|[n e] l IH]; intros Hl cs Hc; cbn [fold_left fst snd dget]; [split; [exact Hc|intros x; destruct (dget N.eq_dec cs x); reflexivity]|].
  inversion Hl as [|? ? Hx Hl']; subst. apply (dget_None N.eq_dec) in Hx. destruct (dget N.eq_dec cs n) as [c|] eqn:E.
  - destruct (IH Hl' (dset N.eq_dec cs n (dset N.eq_dec c id e))) as [H1 H2]; [apply dset_NoDup, Hc|]. split; [exact H1|]. intros x. rewrite H2, dget_dset. destruct (N.eq_dec n x) as [<-|Hne].
    + rewrite E, Hx. destruct (N.eq_dec n n); congruence.
    + destruct (N.eq_dec x n); [congruence|reflexivity].
  - destruct (IH Hl' cs Hc) as [H1 H2]. split; [exact H1|]. intros x. rewrite H2. destruct (N.eq_dec x n) as [->|Hne]; [rewrite E; reflexivity|reflexivity].
Qed.

Lemma id_mem_cons x n l : id_mem x (n :: l) = if N.eq_dec n x then true else id_mem x l.
Proof. unfold id_mem. destruct (in_dec N.eq_dec x (n :: l)), (in_dec N.eq_dec x l), (N.eq_dec n x); try reflexivity; cbn [In] in *; tauto. Qed.

(** ** Edges into and out of a cluster *)
Definition opt {A} (o : option A) : list A := match o with Some a => [a] | None => [] end.
Definition out_of (g : fgraph) (cl : list N) (y : N) : list (option Q) := flat_map (fun k => opt (fedge g k y)) cl.
Definition in_to (g : fgraph) (cl : list N) (x : N) : list (option Q) := flat_map (fun k => opt (fedge g x k)) cl.
Definition summed (l : list (option Q)) : option (option Q) := match l with [] => None | _ => Some (edges_sum l) end.
Lemma find_incoming_proof g cl nodes : NoDup nodes -> NoDup (dkeys (find_incoming_edges g cl nodes)) /\
  forall x, dget N.eq_dec (find_incoming_edges g cl nodes) x = if id_mem x nodes && negb (id_mem x cl) then summed (in_to g cl x) else None.
Proof.
  intros Hn. unfold find_incoming_edges.
  assert (G : forall nodes m, NoDup nodes -> NoDup (dkeys m) -> let r := fold_left (fun m id =>
    if id_mem id cl then m
    else match dget N.eq_dec (fg_connections g) id with
         | None => m
         | Some c => match flat_map (fun k => match dget N.eq_dec c k with Some e => [e] | None => [] end) cl with
                     | [] => m
                     | edges => dset N.eq_dec m id (edges_sum edges)
                     end
         end) nodes m in NoDup (dkeys r) /\ forall x, dget N.eq_dec r x = if id_mem x nodes && negb (id_mem x cl) then match summed (in_to g cl x) with Some e => Some e | None => dget N.eq_dec m x end else dget N.eq_dec m x).
  { clear nodes Hn. cbn zeta. induction nodes as [|n nodes IH]; intros m Hn Hm; cbn [fold_left]; [auto|]. inversion Hn as [|? ? Hx Hn']; subst.
    assert (E : (if id_mem n cl then m
    else match dget N.eq_dec (fg_connections g) n with
         | None => m
         | Some c => match flat_map (fun k => match dget N.eq_dec c k with Some e => [e] | None => [] end) cl with
                     | [] => m
                     | edges => dset N.eq_dec m n (edges_sum edges)
                     end
         end) = if id_mem n cl then m else match summed (in_to g cl n) with Some e => dset N.eq_dec m n e | None => m end).
    { destruct (id_mem n cl); [reflexivity|]. unfold in_to, fedge, entry. destruct (dget N.eq_dec (fg_connections g) n) as [c|].
      - unfold summed, opt. destruct (flat_map _ cl); reflexivity.
      - replace (flat_map _ cl) with (@nil (option Q)); [reflexivity|]. clear. induction cl as [|k cl IH]; [reflexivity|exact IH]. }
    rewrite E. clear E. set (m' := if id_mem n cl then m else match summed (in_to g cl n) with Some e => dset N.eq_dec m n e | None => m end).
    assert (Hm' : NoDup (dkeys m') /\ forall x, dget N.eq_dec m' x = if N.eq_dec n x then if id_mem n cl then dget N.eq_dec m n else match summed (in_to g cl n) with Some e => Some e | None => dget N.eq_dec m n end else dget N.eq_dec m x).
    { unfold m'. destruct (id_mem n cl); [|destruct (summed (in_to g cl n))]; (split; [try apply dset_NoDup; exact Hm|]); intros x; rewrite ?dget_dset; destruct (N.eq_dec n x); congruence. }
    destruct Hm' as [H1 H2]. destruct (IH m' Hn' H1) as [I1 I2]. split; [exact I1|]. intros x. rewrite I2, H2. rewrite (id_mem_cons x n nodes).
    destruct (N.eq_dec n x) as [->|Hne].
    - rewrite (proj2 (id_mem_no x nodes) Hx). cbn [andb]. destruct (id_mem x cl); reflexivity.
    - reflexivity. }
  destruct (G nodes [] Hn (NoDup_nil _)) as [H1 H2]. cbn zeta in *. split; [exact H1|]. intros x. rewrite H2. cbn [dget]. destruct (_ && _); [destruct (summed _); reflexivity|reflexivity].
Qed.
Lemma find_outgoing_proof g ord cl : ftidy g -> (forall A (l : list A), Permutation (ord A l) l) -> NoDup (dkeys (find_outgoing_edges g ord cl)) /\
  forall y, dget N.eq_dec (find_outgoing_edges g ord cl) y = if id_mem y cl then None else summed (out_of g cl y).
Proof.
  intros [T1 T2] O. unfold find_outgoing_edges. rewrite fkeys_map.
  assert (G1 : forall (c : dict N (option Q)) m, NoDup (dkeys c) -> NoDup (dkeys m) -> let r := fold_left (fun m ce => if id_mem (fst ce) cl then m
                                         else match dget N.eq_dec m (fst ce) with
                                              | Some es => dset N.eq_dec m (fst ce) (es ++ [snd ce])
                                              | None => dset N.eq_dec m (fst ce) [snd ce]
                                              end) c m in NoDup (dkeys r) /\ forall y, dget N.eq_dec r y = if id_mem y cl then dget N.eq_dec m y else match dget N.eq_dec c y with None => dget N.eq_dec m y | Some e => Some (match dget N.eq_dec m y with Some es => es | None => [] end ++ [e]) end).
  { cbn zeta. induction c as [|[k e] c IH]; intros m Hc Hm; cbn [fold_left fst snd dget]; [split; [exact Hm|intros y; destruct (id_mem y cl); reflexivity]|].
    inversion Hc as [|? ? Hk Hc']; subst. apply (dget_None N.eq_dec) in Hk.
    match goal with |- context [fold_left _ c ?x] => set (m' := x) end.
    assert (Hm' : NoDup (dkeys m') /\ forall y, dget N.eq_dec m' y = if N.eq_dec k y then if id_mem k cl then dget N.eq_dec m k else Some (match dget N.eq_dec m k with Some es => es | None => [] end ++ [e]) else dget N.eq_dec m y).
    { unfold m'. destruct (id_mem k cl); [|destruct (dget N.eq_dec m k)]; (split; [try apply dset_NoDup; exact Hm|]); intros y; rewrite ?dget_dset; destruct (N.eq_dec k y); cbn [app]; congruence. }
    destruct Hm' as [H1 H2]. destruct (IH m' Hc' H1) as [I1 I2]. split; [exact I1|]. intros y. rewrite I2, H2. destruct (N.eq_dec k y) as [->|Hne].
    - rewrite Hk. destruct (N.eq_dec y y); [|congruence]. destruct (id_mem y cl); reflexivity.
    - destruct (N.eq_dec y k); [congruence|reflexivity]. }
  assert (G2 : forall l m, NoDup (dkeys m) -> let r := fold_left (fun m k =>
      match dget N.eq_dec (fg_connections g) k with
      | None => m
      | Some c => fold_left (fun m ce => if id_mem (fst ce) cl then m
                                         else match dget N.eq_dec m (fst ce) with
                                              | Some es => dset N.eq_dec m (fst ce) (es ++ [snd ce])
                                              | None => dset N.eq_dec m (fst ce) [snd ce]
                                              end) (ord _ c) m
      end) l m in NoDup (dkeys r) /\ forall y, dget N.eq_dec r y = if id_mem y cl then dget N.eq_dec m y else match out_of g l y with [] => dget N.eq_dec m y | es => Some (match dget N.eq_dec m y with Some es => es | None => [] end ++ es) end).
  { cbn zeta. induction l as [|k l IH]; intros m Hm; cbn [fold_left]; [split; [exact Hm|intros y; destruct (id_mem y cl); reflexivity]|].
    match goal with |- context [fold_left _ l ?x] => set (m' := x) end.
    assert (Hm' : NoDup (dkeys m') /\ forall y, dget N.eq_dec m' y = if id_mem y cl then dget N.eq_dec m y else match fedge g k y with None => dget N.eq_dec m y | Some e => Some (match dget N.eq_dec m y with Some es => es | None => [] end ++ [e]) end).
    { unfold m', fedge, entry. destruct (dget N.eq_dec (fg_connections g) k) as [c|] eqn:E.
      - assert (Hc := T2 k c E). destruct (G1 (ord _ c) m) as [H1 H2]; [apply (Permutation_NoDup (l := dkeys c)); [apply Permutation_map, Permutation_sym, O|exact Hc]|exact Hm|].
        cbn zeta in *. split; [exact H1|]. intros y. rewrite H2, (fdget_perm c _ y Hc (O _ c)). reflexivity.
      - split; [exact Hm|]. intros y. destruct (id_mem y cl); reflexivity. }
    destruct Hm' as [H1 H2]. destruct (IH m' H1) as [I1 I2]. split; [exact I1|]. intros y. rewrite I2, H2. unfold out_of. cbn [flat_map]. destruct (id_mem y cl); [reflexivity|]. destruct (fedge g k y) as [e|]; cbn [opt app].
    - destruct (flat_map _ l); [reflexivity|]. rewrite <- app_assoc. reflexivity.
    - reflexivity. }
  destruct (G2 cl [] (NoDup_nil _)) as [H1 H2]. cbn zeta in *. split; [exact H1|]. intros y. rewrite fdget_map, H2. cbn [dget]. destruct (id_mem y cl); [reflexivity|]. unfold summed. destruct (out_of g cl y); reflexivity.
Qed.
Lemma adjust_proof g cl id incoming outgoing : ftidy g -> (forall y, fedge g id y = None) -> (forall x, fedge g x id = None) -> NoDup (dkeys incoming) -> NoDup (dkeys outgoing) ->
  (forall x, dget N.eq_dec incoming x <> None -> dget N.eq_dec (fg_connections g) x <> None /\ x <> id) ->
  let g' := adjust_transitions g cl id incoming outgoing in
  ftidy g' /\ fg_nodes g' = fold_left (ddel N.eq_dec) cl (fg_nodes g) /\
  forall x y, fedge g' x y = if id_mem x cl || id_mem y cl then None else if N.eq_dec x id then dget N.eq_dec outgoing y else if N.eq_dec y id then dget N.eq_dec incoming x else fedge g x y.
Proof.
  intros [T1 T2] H1 H2 Ni No Hi. cbn zeta. unfold adjust_transitions.
  destruct (fincoming incoming id Ni (fg_connections g) T1) as [A1 A2]. cbn zeta in A1, A2.
  set (c1 := fold_left _ incoming (fg_connections g)) in *. clearbody c1.
  destruct (fsets outgoing No [] (NoDup_nil _)) as [B1 B2]. set (o1 := fold_left (fun (m : dict N (option Q)) ne => dset N.eq_dec m (fst ne) (snd ne)) outgoing []) in *. clearbody o1.
  assert (C1 : NoDup (dkeys (dset N.eq_dec c1 id o1))) by (apply dset_NoDup, A1).
  destruct (fdels cl _ C1) as [D1 D2]. set (c2 := fold_left (ddel N.eq_dec) cl (dset N.eq_dec c1 id o1)) in *. clearbody c2.
  assert (Hrow : forall x c, dget N.eq_dec c2 x = Some c -> NoDup (dkeys c)).
  { intros x c H. rewrite D2 in H. destruct (id_mem x cl); [discriminate|]. rewrite dget_dset in H. destruct (N.eq_dec id x); [injection H as <-; exact B1|]. rewrite A2 in H. destruct (dget N.eq_dec (fg_connections g) x) as [c0|] eqn:E; [|discriminate].
    specialize (T2 _ _ E). destruct (dget N.eq_dec incoming x); injection H as <-; [apply dset_NoDup, T2|exact T2]. }
  split; [split; cbn [fg_connections]; [rewrite fkeys_map; exact D1|]|split; [reflexivity|]].
  - intros x c H. rewrite fdget_map in H. destruct (dget N.eq_dec c2 x) as [c0|] eqn:E; [|discriminate]. cbn [option_map] in H. injection H as <-. apply fdels, (Hrow _ _ E).
  - intros x y. unfold fedge at 1, entry. cbn [fg_connections]. rewrite fdget_map. destruct (dget N.eq_dec c2 x) as [c|] eqn:E; cbn [option_map].
    + rewrite (proj2 (fdels cl c (Hrow _ _ E))). rewrite D2 in E. destruct (id_mem x cl); [discriminate|]. cbn [orb]. destruct (id_mem y cl); [reflexivity|]. rewrite dget_dset in E. destruct (N.eq_dec id x) as [<-|Hne].
      * injection E as <-. rewrite B2. destruct (N.eq_dec id id); [|congruence]. cbn [dget]. destruct (dget N.eq_dec outgoing y); reflexivity.
      * destruct (N.eq_dec x id); [congruence|]. rewrite A2 in E. specialize (H2 x). unfold fedge, entry in *. destruct (dget N.eq_dec (fg_connections g) x) as [c0|] eqn:E0; [|discriminate].
        destruct (dget N.eq_dec incoming x) as [e|]; injection E as <-; rewrite ?dget_dset; destruct (N.eq_dec y id) as [->|Hy]; try (destruct (N.eq_dec id id)); try (destruct (N.eq_dec id y)); congruence.
    + rewrite D2 in E. destruct (id_mem x cl); [reflexivity|]. cbn [orb]. destruct (id_mem y cl); [reflexivity|]. rewrite dget_dset in E. destruct (N.eq_dec id x) as [<-|Hne]; [discriminate|].
      destruct (N.eq_dec x id); [congruence|]. rewrite A2 in E. unfold fedge, entry. specialize (Hi x). destruct (dget N.eq_dec (fg_connections g) x) as [c0|] eqn:E0; [destruct (dget N.eq_dec incoming x); discriminate|].
      destruct (N.eq_dec y id); [|reflexivity]. destruct (dget N.eq_dec incoming x); [|reflexivity]. destruct Hi as [Hi _]; [discriminate|]. congruence.
Qed.

(** ** Bundles *)
Definition enc (log : flog) (pairs : list (pystr * pystr)) : option (option Q) :=
  match pairs with [] => None | _ => Some (Some (num (list_sum (map (fun ab => follows log (fst ab) (snd ab)) pairs)))) end.
Lemma edges_sum_enc log (pss : list (list (pystr * pystr))) :
  summed (flat_map (fun ps => opt (enc log ps)) pss) = enc log (concat pss).
Proof.
  assert (G : forall n, fold_left (fun s e => Some (match s with Some x => x | None => 0%Q end + match e with Some x => x | None => 0%Q end)%Q) (flat_map (fun ps => opt (enc log ps)) pss) (Some (num n)) =
    Some (num (n + list_sum (map (fun ab => follows log (fst ab) (snd ab)) (concat pss))))).
  { induction pss as [|ps pss IH]; intros n; cbn [flat_map concat map].
    - cbn. rewrite Nat.add_0_r. reflexivity.
    - rewrite fold_left_app, map_app. destruct ps as [|ab ps]; cbn [enc opt fold_left map app].
      + apply IH.
      + rewrite num_plus, IH. do 2 f_equal. unfold list_sum. cbn [fold_right]. rewrite fold_right_app. clear. generalize (map (fun ab => follows log (fst ab) (snd ab)) ps) (fold_right Nat.add 0 (map (fun ab => follows log (fst ab) (snd ab)) (concat pss))).
        induction l as [|y l IH]; intros m; cbn [fold_right]; [lia|]. specialize (IH m). lia. }
  unfold summed, edges_sum. change (Some 0%Q) with (Some (num 0)). rewrite G, Nat.add_0_l. unfold enc at 2.
  assert (E : flat_map (fun ps => opt (enc log ps)) pss = [] <-> concat pss = []).
  { clear. induction pss as [|ps pss IH]; cbn [flat_map concat]; [tauto|]. destruct ps as [|ab ps]; cbn [enc opt app]; [exact IH|split; discriminate]. }
  destruct (flat_map _ pss) eqn:Ef, (concat pss) eqn:Ec; try reflexivity; exfalso; [assert (K := proj1 E eq_refl)|assert (K := proj2 E eq_refl)]; discriminate.
Qed.
Lemma bundle_in log p A (s : list N) (b : list pystr) (e : N -> option (option Q)) : NoDup b -> Forall2 (fun x c => bundle log p A [c] (e x)) s b ->
  bundle log p A b (summed (flat_map (fun x => opt (e x)) s)).
Proof.
  intros Nb F.
  assert (G : exists pss, flat_map (fun x => opt (e x)) s = flat_map (fun ps => opt (enc log ps)) pss /\ NoDup (concat pss) /\ forall a d, In (a, d) (concat pss) <-> In a A /\ In d b /\ third_edge log p a d).
  { induction F as [|x c s b (ps & P1 & P2 & P3) F IH]; [exists []; split; [reflexivity|]; split; [constructor|]; intros a d; cbn [concat In]; tauto|].
    inversion Nb as [|? ? Hc Nb']; subst. destruct (IH Nb') as (pss & E & N1 & N2). exists (ps :: pss). cbn [flat_map concat]. rewrite E. split; [|split].
    - f_equal. rewrite P3. reflexivity.
    - apply fNoDup_app; [exact P1|exact N1|]. intros [a d] H1 H2. apply P2 in H1. apply N2 in H2. destruct H1 as (_ & [->|[]] & _). destruct H2 as (_ & H2 & _). auto.
    - intros a d. rewrite in_app_iff, P2, N2. cbn [In]. split; [intros [(H1 & [->|[]] & H3)|(H1 & H2 & H3)]; auto|intros (H1 & [->|H2] & H3); auto]. }
  destruct G as (pss & -> & N1 & N2). rewrite edges_sum_enc. exists (concat pss). auto.
Qed.
Lemma bundle_out log p A (s : list N) (b : list pystr) (e : N -> option (option Q)) : NoDup b -> Forall2 (fun x c => bundle log p [c] A (e x)) s b ->
  bundle log p b A (summed (flat_map (fun x => opt (e x)) s)).
Proof.
  intros Nb F.
  assert (G : exists pss, flat_map (fun x => opt (e x)) s = flat_map (fun ps => opt (enc log ps)) pss /\ NoDup (concat pss) /\ forall a d, In (a, d) (concat pss) <-> In a b /\ In d A /\ third_edge log p a d).
  { induction F as [|x c s b (ps & P1 & P2 & P3) F IH]; [exists []; split; [reflexivity|]; split; [constructor|]; intros a d; cbn [concat In]; tauto|].
    inversion Nb as [|? ? Hc Nb']; subst. destruct (IH Nb') as (pss & E & N1 & N2). exists (ps :: pss). cbn [flat_map concat]. rewrite E. split; [|split].
    - f_equal. rewrite P3. reflexivity.
    - apply fNoDup_app; [exact P1|exact N1|]. intros [a d] H1 H2. apply P2 in H1. apply N2 in H2. destruct H1 as ([->|[]] & _). destruct H2 as (H2 & _). auto.
    - intros a d. rewrite in_app_iff, P2, N2. cbn [In]. split; [intros [([->|[]] & H2 & H3)|(H1 & H2 & H3)]; auto|intros ([->|H1] & H2 & H3); auto]. }
  destruct G as (pss & -> & N1 & N2). rewrite edges_sum_enc. exists (concat pss). auto.
Qed.
Lemma bundle_perm log p A A' b b' e : Permutation A A' -> Permutation b b' -> bundle log p A b e -> bundle log p A' b' e.
Proof.
  intros PA Pb (pairs & H1 & H2 & H3). exists pairs. split; [exact H1|]. split; [|exact H3]. intros a d. rewrite H2. split; intros (K1 & K2 & K3); (split; [|split; [|exact K3]]).
  - apply (Permutation_in _ PA K1).
  - apply (Permutation_in _ Pb K2).
  - apply (Permutation_in _ (Permutation_sym PA) K1).
  - apply (Permutation_in _ (Permutation_sym Pb) K2).
Qed.

(** ** Names of clusters *)
Lemma cluster_data_proof l : cluster_data (map Some l) = str "Cluster[" ++ comma_list l ++ str "]".
Proof.
  unfold cluster_data. set (pre := str "Cluster["). assert (Hp : exists q, pre = q ++ [91%N]) by (exists (str "Cluster"); reflexivity). destruct l as [|x l].
  - cbn [map flat_map comma_list]. destruct Hp as (q & ->). rewrite app_nil_r, last_last. cbn [N.eqb Pos.eqb]. reflexivity.
  - assert (E : flat_map (fun d => match d with Some n => n ++ str "," | None => [] end) (map Some (x :: l)) = comma_list (x :: l) ++ [44%N]).
    { cbn [comma_list]. revert x. induction l as [|y l IH]; intros x; cbn [map flat_map] in *; [rewrite !app_nil_r; reflexivity|]. rewrite IH. rewrite <- !app_assoc. reflexivity. }
    rewrite E, app_assoc, last_last, removelast_last. cbn [N.eqb Pos.eqb]. rewrite <- app_assoc. reflexivity.
Qed.

(** ** One cluster *)
Record quot (log : flog) (p : fparams) (nodes : list (N * fnode)) (g : fgraph) (next : N) : Prop := {
  q_tidy : ftidy g;
  q_keys : NoDup (dkeys (fg_nodes g));
  q_once : NoDup (map fst nodes);
  q_ids : forall i, In i (dkeys (fg_nodes g)) <-> In i (map fst nodes);
  q_next : forall i, In i (map fst nodes) -> (i < next)%N;
  q_labels : forall i u, In (i, u) nodes -> exists s, dget N.eq_dec (fg_nodes g) i = Some (Some s) /\ label u s;
  q_ends : forall i j, fedge g i j <> None -> In i (map fst nodes) /\ In j (map fst nodes);
  q_edges : forall i u j v, In (i, u) nodes -> In (j, v) nodes -> i <> j -> bundle log p (members u) (members v) (fedge g i j);
  q_loops : forall i u, In (i, u) nodes -> match u with Plain c => bundle log p [c] [c] (fedge g i i) | Cluster _ => fedge g i i = None end }.
Definition without (s : list N) (nodes : list (N * fnode)) : list (N * fnode) := filter (fun iu => negb (id_mem (fst iu) s)) nodes.
Lemma without_In s nodes i u : In (i, u) (without s nodes) <-> In (i, u) nodes /\ ~ In i s.
Proof. unfold without. rewrite filter_In. cbn [fst]. rewrite negb_true_iff, id_mem_no. reflexivity. Qed.
Lemma Forall2_perm {A C} (R : A -> C -> Prop) s s' b : Permutation s' s -> Forall2 R s b -> exists b', Permutation b' b /\ Forall2 R s' b'.
Proof.
  intros P. revert b. induction P as [|x s' s P IH|x y s|s1 s2 s3 P1 IH1 P2 IH2]; intros b F.
  - inversion F; subst. exists []. split; constructor.
  - inversion F as [|? c ? b0 H F0]; subst. destruct (IH _ F0) as (b' & Pb & F'). exists (c :: b'). split; [constructor; exact Pb|constructor; assumption].
  - inversion F as [|? c ? b0 H F0]; subst. inversion F0 as [|? d ? b1 H1 F1]; subst. exists (d :: c :: b1). split; [apply perm_swap|]. constructor; [assumption|]. constructor; assumption.
  - destruct (IH2 _ F) as (b2 & Pb2 & F2). destruct (IH1 _ F2) as (b1 & Pb1 & F1). exists b1. split; [etransitivity; eassumption|exact F1].
Qed.
Lemma Forall2_weaken {A C} (R R' : A -> C -> Prop) s b : Forall2 R s b -> (forall x c, R x c -> In x s -> R' x c) -> Forall2 R' s b.
Proof. intros F. induction F as [|x c s b H F IH]; intros K; [constructor|]. constructor; [apply K; [exact H|left; reflexivity]|]. apply IH. intros; apply K; [assumption|right; assumption]. Qed.
Lemma merge_step log p ord nodes g next s b : any_order ord -> quot log p nodes g next -> NoDup s -> NoDup b -> Forall2 (fun x c => In (x, Plain c) nodes) s b ->
  exists g', merge_into_one ord (g, next) s = Ok (g', N.succ next) /\ quot log p (without s nodes ++ [(next, Cluster b)]) g' (N.succ next).
Proof.
  intros O [Qt Qk Qo Qi Qn Ql Qe Qg Qp] Ns Nb F. unfold merge_into_one.
  destruct (Forall2_perm _ _ _ _ (O 0 _ s) F) as (b' & Pb & F'). set (cl := ord 0 _ s) in *.
  assert (Hcl : forall x, In x cl <-> In x s) by (intros x; split; apply Permutation_in; [apply O|apply Permutation_sym, O]).
  assert (Hmem : forall x, id_mem x cl = id_mem x s). { intros x. destruct (id_mem x s) eqn:E; [apply id_mem_In in E; apply id_mem_In, Hcl, E|apply id_mem_no in E; apply id_mem_no; rewrite Hcl; exact E]. }
  assert (M : mapM (fun id => match dget N.eq_dec (fg_nodes g) id with Some d => Ok d | None => rpanic end) cl = Ok (map Some b')).
  { clear -F' Ql. induction F' as [|x c cl b' H F' IH]; [reflexivity|]. cbn [mapM map]. destruct (Ql x (Plain c) H) as (st & -> & Hl). cbn [label] in Hl. subst st. cbn [bind]. rewrite IH. reflexivity. }
  rewrite M. cbn [bind]. cbn zeta. rewrite cluster_data_proof.
  match goal with |- context [fg_add_node ?a ?b ?d] => set (g1 := fg_add_node a b d) end.
  assert (E1 : forall x y, fedge g1 x y = fedge g x y) by reflexivity.
  assert (T1 : ftidy g1) by exact Qt.
  assert (Hnew : ~ In next (map fst nodes)) by (intros K; apply Qn in K; lia).
  assert (Hnx : forall y, fedge g next y = None) by (intros y; destruct (fedge g next y) eqn:E; [|reflexivity]; exfalso; apply Hnew; apply (Qe next y); congruence).
  assert (Hny : forall x, fedge g x next = None) by (intros x; destruct (fedge g x next) eqn:E; [|reflexivity]; exfalso; apply Hnew; apply (Qe x next); congruence).
  assert (K1 : NoDup (dkeys (fg_nodes g1))) by (apply dset_NoDup, Qk).
  assert (Hk1 : forall x, In x (dkeys (fg_nodes g1)) <-> x = next \/ In x (map fst nodes)) by (intros x; unfold g1, fg_add_node; cbn [fg_nodes]; rewrite dset_In_keys, Qi; reflexivity).
  assert (Kn : NoDup (ord 1 _ (dkeys (fg_nodes g1)))) by (apply (Permutation_NoDup (Permutation_sym (O 1 _ _)) K1)).
  destruct (find_incoming_proof g1 cl (ord 1 _ (dkeys (fg_nodes g1))) Kn) as [I1 I2].
  destruct (find_outgoing_proof g1 (ord 2) cl T1 (O 2)) as [U1 U2].
  set (inc := find_incoming_edges g1 cl (ord 1 _ (dkeys (fg_nodes g1)))) in *. set (out := find_outgoing_edges g1 (ord 2) cl) in *. clearbody inc out.
  assert (Hsn : ~ In next s). { intros K. apply Hnew. clear -F K. induction F as [|x c s b H F IH]; [destruct K|]. destruct K as [<-|K]; [apply (in_map fst) in H; exact H|auto]. }
  assert (Hm1 : forall x, id_mem x (ord 1 _ (dkeys (fg_nodes g1))) = true <-> x = next \/ In x (map fst nodes)).
  { intros x. rewrite id_mem_In, <- Hk1. split; apply Permutation_in; [apply O|apply Permutation_sym, O]. }
  assert (D3 : forall x, dget N.eq_dec (ord 3 _ inc) x = dget N.eq_dec inc x) by (intros x; apply fdget_perm; [exact I1|apply O]).
  assert (D4 : forall x, dget N.eq_dec (ord 4 _ out) x = dget N.eq_dec out x) by (intros x; apply fdget_perm; [exact U1|apply O]).
  assert (Hinn : in_to g1 cl next = []). { unfold in_to. clear -Hnx E1. induction cl as [|k cl IH]; [reflexivity|]. cbn [flat_map]. rewrite E1, Hnx. exact IH. }
  destruct (adjust_proof g1 cl next (ord 3 _ inc) (ord 4 _ out) T1) as (A1 & A2 & A3).
  { intros y. rewrite E1. apply Hnx. } { intros x. rewrite E1. apply Hny. }
  { apply (Permutation_NoDup (l := dkeys inc)); [apply Permutation_map, Permutation_sym, O|exact I1]. }
  { apply (Permutation_NoDup (l := dkeys out)); [apply Permutation_map, Permutation_sym, O|exact U1]. }
  { intros x. rewrite D3, I2. destruct (_ && _); [|congruence]. intros H. split.
    - intros E. apply H. unfold in_to, fedge, entry. cbn [g1 fg_add_node fg_connections] in *. rewrite E. clear. unfold summed. replace (flat_map _ cl) with (@nil (option Q)); [reflexivity|]. induction cl as [|k cl IH]; [reflexivity|exact IH].
    - intros ->. rewrite Hinn in H. apply H. reflexivity. }
  cbn zeta in A1, A2, A3. set (g' := adjust_transitions g1 cl next (ord 3 _ inc) (ord 4 _ out)) in *. clearbody g'.
  assert (E3 : forall x y, fedge g' x y = if id_mem x s || id_mem y s then None else if N.eq_dec x next then dget N.eq_dec out y else if N.eq_dec y next then dget N.eq_dec inc x else fedge g x y).
  { intros x y. rewrite A3, !Hmem, D3, D4, E1. reflexivity. }
  exists g'. split; [reflexivity|].
  clear A3. destruct (fdels cl (fg_nodes g1) K1) as [B1 B2].
  assert (Hfst : forall i, In i (map fst (without s nodes)) <-> In i (map fst nodes) /\ ~ In i s).
  { intros i. rewrite !in_map_iff. split.
    - intros ([i' u] & <- & H). apply without_In in H. cbn [fst]. split; [exists (i', u); split; [reflexivity|apply H]|apply H].
    - intros [([i' u] & <- & H) Hs]. cbn [fst] in *. exists (i', u). split; [reflexivity|]. apply without_In. auto. }
  assert (Hno : id_mem next s = false) by (apply id_mem_no; exact Hsn).
  assert (Hplain : forall x c, In (x, Plain c) nodes -> forall u, In (x, u) nodes -> u = Plain c).
  { intros x c H u H'. apply (In_dget N.eq_dec nodes x _ Qo) in H. apply (In_dget N.eq_dec nodes x _ Qo) in H'. congruence. }
  assert (Hout : forall j v, In (j, v) nodes -> ~ In j s -> bundle log p b (members v) (fedge g' next j)).
  { intros j v Hj Hjs. assert (Ej : fedge g' next j = summed (out_of g1 cl j)).
    { rewrite E3, Hno. rewrite (proj2 (id_mem_no j s) Hjs). cbn [orb]. destruct (N.eq_dec next next); [|congruence]. rewrite U2, Hmem, (proj2 (id_mem_no j s) Hjs). reflexivity. }
    rewrite Ej. apply (bundle_perm log p b' b (members v) (members v)); [exact Pb|reflexivity|]. unfold out_of. apply bundle_out; [apply (Permutation_NoDup (Permutation_sym Pb) Nb)|].
    assert (Fs : forall x, In x cl -> x <> j) by (intros x Hx ->; apply Hjs, Hcl, Hx). apply (Forall2_weaken _ _ _ _ F'). intros x c H Hx. rewrite E1. apply (Qg x (Plain c) j v H Hj), Fs, Hx. }
  assert (Hin : forall i u, In (i, u) nodes -> ~ In i s -> bundle log p (members u) b (fedge g' i next)).
  { intros i u Hi His. assert (Hix : i <> next) by (intros ->; apply Hnew; apply (in_map fst) in Hi; exact Hi).
    assert (Ei : fedge g' i next = summed (in_to g1 cl i)).
    { rewrite E3, Hno, (proj2 (id_mem_no i s) His). cbn [orb]. destruct (N.eq_dec i next); [congruence|]. destruct (N.eq_dec next next); [|congruence]. rewrite I2, Hmem, (proj2 (id_mem_no i s) His).
      rewrite (proj2 (Hm1 i)); [reflexivity|]. right. apply (in_map fst) in Hi. exact Hi. }
    rewrite Ei. apply (bundle_perm log p (members u) (members u) b' b); [reflexivity|exact Pb|]. unfold in_to. apply bundle_in; [apply (Permutation_NoDup (Permutation_sym Pb) Nb)|].
    assert (Fs : forall x, In x cl -> i <> x) by (intros x Hx <-; apply His, Hcl, Hx). apply (Forall2_weaken _ _ _ _ F'). intros x c H Hx. rewrite E1. apply (Qg i u x (Plain c) Hi H), Fs, Hx. }
  assert (Hold : forall i j, In i (map fst nodes) -> In j (map fst nodes) -> ~ In i s -> ~ In j s -> fedge g' i j = fedge g i j).
  { intros i j Hi Hj His Hjs. rewrite E3, (proj2 (id_mem_no i s) His), (proj2 (id_mem_no j s) Hjs). cbn [orb]. destruct (N.eq_dec i next) as [->|]; [destruct (Hnew Hi)|]. destruct (N.eq_dec j next) as [->|]; [destruct (Hnew Hj)|]. reflexivity. }
  assert (Hself : fedge g' next next = None).
  { rewrite E3, Hno. cbn [orb]. destruct (N.eq_dec next next); [|congruence]. rewrite U2, Hmem, Hno. unfold out_of. replace (flat_map (fun k => opt (fedge g1 k next)) cl) with (@nil (option Q)); [reflexivity|].
    clear -Hny E1. induction cl as [|k cl IH]; [reflexivity|]. cbn [flat_map]. rewrite E1, Hny. exact IH. }
  assert (Hsplit : forall i u, In (i, u) (without s nodes ++ [(next, Cluster b)]) -> (In (i, u) nodes /\ ~ In i s) \/ (i = next /\ u = Cluster b)).
  { intros i u H. apply in_app_or in H. destruct H as [H|[H|[]]]; [left; apply without_In, H|right; injection H as <- <-; auto]. }
  assert (Hfst' : forall i, In i (map fst (without s nodes ++ [(next, Cluster b)])) <-> (In i (map fst nodes) /\ ~ In i s) \/ i = next).
  { intros i. rewrite map_app, in_app_iff, Hfst. cbn [map fst In]. split; [intros [H|[H|[]]]; auto|intros [H|H]; auto]. }
  split.
  - exact A1.
  - rewrite A2. exact B1.
  - rewrite map_app. cbn [map fst]. apply fNoDup_app; [|constructor; [intros []|constructor]|].
    + clear -Qo. unfold without. induction nodes as [|[i u] nodes IH]; [constructor|]. cbn [map fst] in Qo. inversion Qo as [|? ? H1 H2]; subst. cbn [filter fst]. destruct (negb _); [|auto]. cbn [map fst]. constructor; [|auto].
      intros K. apply H1. apply in_map_iff in K. destruct K as ([i' u'] & E & K). cbn [fst] in E. subst i'. apply filter_In in K. destruct K as [K _]. apply (in_map fst) in K. exact K.
    + intros i H1 [<-|[]]. apply Hfst in H1. destruct H1 as [H1 _]. auto.
  - intros i. rewrite Hfst', A2. split.
    + intros H. apply (dget_Some_key N.eq_dec) in H. destruct H as (v & H). rewrite B2, Hmem in H. destruct (id_mem i s) eqn:E; [discriminate|]. apply id_mem_no in E.
      assert (K : In i (dkeys (fg_nodes g1))) by (apply (dget_Some_key N.eq_dec); eauto). apply Hk1 in K. destruct K; auto.
    + intros H. assert (K : In i (dkeys (fg_nodes g1)) /\ id_mem i s = false). { split; [apply Hk1; tauto|]. destruct H as [[_ H]| ->]; [apply id_mem_no, H|exact Hno]. }
      destruct K as [K Km]. apply (dget_Some_key N.eq_dec) in K. destruct K as (v & K). apply (dget_Some_key N.eq_dec). exists v. rewrite B2, Hmem, Km. exact K.
  - intros i Hi. apply Hfst' in Hi. destruct Hi as [[Hi _]| ->]; [apply Qn in Hi; lia|lia].
  - intros i u H. apply Hsplit in H. rewrite A2. destruct H as [[H Hs]|[-> ->]]; rewrite B2, Hmem.
    + rewrite (proj2 (id_mem_no i s) Hs). destruct (Ql i u H) as (st & E & L). exists st. split; [|exact L]. unfold g1, fg_add_node. cbn [fg_nodes]. rewrite dget_dset. destruct (N.eq_dec next i) as [<-|]; [|exact E]. exfalso. apply Hnew. apply (in_map fst) in H. exact H.
    + rewrite Hno. exists (str "Cluster[" ++ comma_list b' ++ str "]"). split; [unfold g1, fg_add_node; cbn [fg_nodes]; rewrite dget_dset; destruct (N.eq_dec next next); congruence|]. exists b'. auto.
  - intros i j H. rewrite !Hfst'. rewrite E3 in H. destruct (id_mem i s) eqn:Ei; [cbn in H; congruence|]. destruct (id_mem j s) eqn:Ej; [cbn in H; congruence|]. cbn [orb] in H. apply id_mem_no in Ei, Ej.
    destruct (N.eq_dec i next) as [->|Hi].
    + split; [auto|]. destruct (N.eq_dec j next) as [->|Hj]; [auto|]. left. split; [|exact Ej]. rewrite U2 in H. destruct (id_mem j cl); [congruence|]. unfold summed, out_of in H. destruct (flat_map (fun k => opt (fedge g1 k j)) cl) as [|e es] eqn:E; [congruence|].
      assert (K : In e (flat_map (fun k => opt (fedge g1 k j)) cl)) by (rewrite E; left; reflexivity). apply in_flat_map in K. destruct K as (x & _ & K). rewrite E1 in K. destruct (fedge g x j) eqn:E2; [|destruct K]. apply (Qe x j). congruence.
    + destruct (N.eq_dec j next) as [->|Hj].
      * split; [|auto]. left. split; [|exact Ei]. rewrite I2 in H. destruct (id_mem i _) eqn:Em; [|cbn in H; congruence]. apply Hm1 in Em. destruct Em as [Em|Em]; [congruence|exact Em].
      * destruct (Qe i j H). auto.
  - intros i u j v Hi Hj Hij. apply Hsplit in Hi, Hj. destruct Hi as [[Hi His]|[-> ->]], Hj as [[Hj Hjs]|[-> ->]].
    + rewrite Hold; [apply (Qg i u j v Hi Hj Hij)|apply (in_map fst) in Hi; exact Hi|apply (in_map fst) in Hj; exact Hj|exact His|exact Hjs].
    + apply (Hin i u Hi His).
    + apply (Hout j v Hj Hjs).
    + congruence.
  - intros i u Hi. apply Hsplit in Hi. destruct Hi as [[Hi His]|[-> ->]]; [|exact Hself]. rewrite Hold; [apply (Qp i u Hi)|apply (in_map fst) in Hi; exact Hi|apply (in_map fst) in Hi; exact Hi|exact His|exact His].
Qed.
