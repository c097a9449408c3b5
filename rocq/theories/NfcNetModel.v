(** Places of the alpha++ NFC algorithm of the backend:
    src/rust/ficus_backend/src/features/discovery/alpha/alpha_plus_plus_nfc/{alpha_plus_plus_nfc,alpha_plus_plus_nfc_triple,
    extended_alpha_set,w3_pair}.rs and the relations w1, w2, w3 of alpha/providers/alpha_plus_nfc_provider.rs 192-481.
    [ord] is the order in which hash tables are walked over (RInfoModel).  [arrow] are the answers of
    right_double_arrow_relation: its cache keeps the first answer for a pair for ever (NfcModel), so one function stands for
    all of a run; nothing is assumed about it here.  The caches of w1, w2 and w3 are left out: w1 and w3 are asked once for a pair,
    and nothing changes between two questions of w2.  Equality by hashes is equality of what is hashed. *)
From Verif Require Import Py InfoModel HashModel ReplayModel RInfoModel AlphaModel NfcModel.

(** The provider as the alpha algorithms see it, alpha_plus_nfc_provider.rs 34-62. *)
Definition nfc_aprovider (p : nprov) : aprovider := mkProvider (np_info p) (nfc_causal p) (nfc_unrelated p).

(** * Triples *)

(** AlphaPlusPlusNfcTriple, alpha_plus_plus_nfc_triple.rs 10-14. *)
Record triple := mkTriple { t_a : list pystr; t_b : list pystr; t_c : list pystr }.
(** What is hashed, 101-113: the bytes of the names, with nothing between them. *)
Definition triple_key (t : triple) : list N := concat (t_a t) ++ concat (t_b t) ++ concat (t_c t).
(** ==, 115-119. *)
Definition triple_eqb (x y : triple) : bool := if list_eq_dec N.eq_dec (triple_key x) (triple_key y) then true else false.
(** valid, 55-79. *)
Definition triple_valid (p : nprov) (t : triple) : bool :=
  forallb (fun a => forallb (fun b => forallb (fun c =>
    (nfc_direct p a c && negb (nfc_triangle p c a)) &&
    (nfc_direct p c b && negb (nfc_triangle p c b)) &&
    negb (nfc_parallel p a b) &&
    (nfc_unrelated p a a && nfc_unrelated p b b)) (t_c t)) (t_b t)) (t_a t).
(** try_new, 25-36. *)
Definition triple_new (p : nprov) (a b c : pystr) : option triple :=
  let candidate := mkTriple [a] [b] [c] in if triple_valid p candidate then Some candidate else None.
(** try_merge, 38-53. *)
Definition triple_merge (p : nprov) (x y : triple) : option triple :=
  let new := mkTriple (bset_of (t_a x ++ t_a y)) (bset_of (t_b x ++ t_b y)) (bset_of (t_c x ++ t_c y)) in
  if triple_valid p new then Some new else None.
(** two_sets, 81-86. *)
Definition triple_sets (t : triple) : aset := mkASet (bset_of (t_a t ++ t_c t)) (bset_of (t_b t ++ t_c t)).

(** * Sets with extensions *)

(** ExtendedAlphaSet, extended_alpha_set.rs 10-14. *)
Record xset := mkXSet { x_set : aset; x_left : list pystr; x_right : list pystr }.
(** What is hashed, 183-194: the strings of the alpha set, with their ends (None), and the bytes of the extensions without. *)
Definition xset_key (x : xset) : list (option N) :=
  flat_map (fun s => map Some s ++ [None]) (as_left (x_set x) ++ as_right (x_set x)) ++ map Some (concat (x_left x)) ++ map Some (concat (x_right x)).
(** Equality of what is hashed, 196-200. *)
Definition key_eq_dec (a b : list (option N)) : {a = b} + {a <> b}.
Proof. decide equality. decide equality. apply N.eq_dec. Defined.
(** ==, 196-200. *)
Definition xset_eqb (x y : xset) : bool := if key_eq_dec (xset_key x) (xset_key y) then true else false.
(** Membership in the relations, extended_alpha_set.rs 119, 127. *)
Definition in_either (w1 w2 : list (pystr * pystr)) (a b : pystr) : bool :=
  (if in_dec pair_eq_dec (a, b) w1 then true else false) || (if in_dec pair_eq_dec (a, b) w2 then true else false).
(** valid, 99-150. *)
Definition xset_valid (p : nprov) (arrow : pystr -> pystr -> bool) (w1 w2 : list (pystr * pystr)) (x : xset) : bool :=
  let lefts := as_left (x_set x) in
  let rights := as_right (x_set x) in
  forallb (fun a => negb (str_mem a lefts)) (x_left x) &&
  forallb (fun b => negb (str_mem b rights)) (x_right x) &&
  forallb (fun a => forallb (fun b => in_either w1 w2 a b) (x_right x)) lefts &&
  forallb (fun b => forallb (fun a => in_either w1 w2 a b) (x_left x)) (rights ++ x_right x) &&
  forallb (fun a' => forallb (fun a => nfc_unrelated p a a' && negb (arrow a a')) (x_left x)) lefts &&
  forallb (fun b' => forallb (fun b => nfc_unrelated p b' b && negb (arrow b' b)) (x_right x)) rights.
(** merge, 160-166. *)
Definition xset_merge (x y : xset) : xset :=
  mkXSet (extend (x_set x) (x_set y)) (bset_of (x_left x ++ x_left y)) (bset_of (x_right x ++ x_right y)).
(** The merger, alpha_plus_plus_nfc.rs 110-121. *)
Definition xset_merger (p : nprov) (arrow : pystr -> pystr -> bool) (w1 w2 : list (pystr * pystr)) (x y : xset) : option xset :=
  if as_eqb (x_set x) (x_set y) then
    let new := xset_merge x y in if xset_valid p arrow w1 w2 new then Some new else None
  else None.
(** two_sets, extended_alpha_set.rs 168-176. *)
Definition xset_sets (x : xset) : aset := mkASet (bset_of (as_left (x_set x) ++ x_left x)) (bset_of (as_right (x_set x) ++ x_right x)).

(** * Pairs of w3 *)

(** valid, w3_pair.rs 33-63; a W3Pair is its two sets, 9-11. *)
Definition w3_valid (p : nprov) (w3 : list (pystr * pystr)) (x : aset) : bool :=
  forallb (fun a => forallb (fun b => if in_dec pair_eq_dec (a, b) w3 then true else false) (as_right x)) (as_left x) &&
  forallb (fun a => forallb (nfc_unrelated p a) (as_left x)) (as_left x) &&
  forallb (fun b => forallb (nfc_unrelated p b) (as_right x)) (as_right x).
(** The merger, alpha_plus_plus_nfc.rs 150-157; merge, w3_pair.rs 65-69. *)
Definition w3_merger (p : nprov) (w3 : list (pystr * pystr)) (x y : aset) : option aset :=
  let new := extend x y in if w3_valid p w3 new then Some new else None.

(** * The relations w1, w2 and w3 *)

(** Names of get_incoming_transitions, petri_net/petri_net.rs 186-200; only whether a name is there matters. *)
Definition pre_names (net : pnet) (place : N) : list pystr :=
  map tr_name (filter (fun t => existsb (fun a => N.eqb (arc_place a) place) (tr_out t)) (n_trans net)).
(** Names of get_outgoing_transitions, petri_net/petri_net.rs 198-200. *)
Definition post_names (net : pnet) (place : N) : list pystr :=
  map tr_name (filter (fun t => existsb (fun a => N.eqb (arc_place a) place) (tr_in t)) (n_trans net)).
(** The places of arcs, alpha_plus_nfc_provider.rs 480. *)
Definition arc_places (arcs : list parc) : list N := map arc_place arcs.

Section Implicit.
  Variable ord : nat -> forall A : Type, list A -> list A.
  Variable arrow : pystr -> pystr -> bool.
  (** concave_arrow_relation or parallel_relation, alpha_plus_nfc_provider.rs 188-190, 256, 306-307, 361-362. *)
  Definition linked (p : nprov) (a b : pystr) : bool := (nfc_causal p a b || arrow a b) || nfc_parallel p a b.
  (** calculate_w1_relation, 199-268. *)
  Definition w1_relation (p : nprov) (net : pnet) (first second : pystr) : bool :=
    if nfc_direct p first second then false else
    existsb (fun class =>
      match find_transition_by_name net class with
      | None => false
      | Some t => existsb (fun p1 => existsb (fun p2 =>
          negb (N.eqb p1 p2) && str_mem first (pre_names net p1) && negb (str_mem first (pre_names net p2)) &&
          str_mem second (post_names net p2) && forallb (fun n => negb (linked p n first)) (pre_names net p2)) (arc_places (tr_in t))) (arc_places (tr_in t))
      end) (r_all_event_classes ord 70 (np_info p)).
  (** calculate_w21_relation, 277-324. *)
  Definition w21_relation (p : nprov) (net : pnet) (first second : pystr) : bool :=
    if arrow first second then
      match find_transition_by_name net first with
      | None => false
      | Some t =>
          if length (tr_out t) <=? 1 then false else
          existsb (fun streak => left_triangle ord p second streak &&
            existsb (fun place => negb (existsb (fun n => linked p n second) (post_names net place)) &&
                                  existsb (fun n => linked p n streak) (post_names net place)) (arc_places (tr_out t)))
            (r_all_event_classes ord 71 (np_info p))
      end
    else false.
  (** calculate_w22_relation, 333-379. *)
  Definition w22_relation (p : nprov) (net : pnet) (first second : pystr) : bool :=
    if arrow first second then
      match find_transition_by_name net second with
      | None => false
      | Some t =>
          if length (tr_in t) <=? 1 then false else
          existsb (fun streak => right_triangle ord p first streak &&
            existsb (fun place => negb (existsb (fun n => linked p first n) (pre_names net place)) &&
                                  existsb (fun n => linked p streak n) (pre_names net place)) (arc_places (tr_in t)))
            (r_all_event_classes ord 72 (np_info p))
      end
    else false.
  (** w2_relation, 381-383. *)
  Definition w2_relation (p : nprov) (net : pnet) (first second : pystr) : bool :=
    w21_relation p net first second || w22_relation p net first second.
  (** get_pre_or_post_set, 473-481; a missing transition is a panic. *)
  Definition pre_set (net : pnet) (name : pystr) : result (list N) :=
    match find_transition_by_name net name with Some t => Ok (arc_places (tr_in t)) | None => rpanic end.
  (** The same, 477. *)
  Definition post_set (net : pnet) (name : pystr) : result (list N) :=
    match find_transition_by_name net name with Some t => Ok (arc_places (tr_out t)) | None => rpanic end.
  (** intersection(..).len() != 0, 413-414, 418-419, 450-451. *)
  Definition meet (a b : list N) : bool := existsb (fun x => existsb (N.eqb x) b) a.
  (** The places of one task, 436-458. *)
  Definition task_places (p : nprov) (net : pnet) (first first' second' : pystr) (second_pre : list N) (task : pystr) : result (list N) :=
    if arrow first task then Ok [] else if negb (arrow first' task) then Ok [] else
    if negb (nfc_parallel p second' task || (nfc_causal p second' task || arrow second' task)) then Ok [] else
    bind (pre_set net task) (fun task_pre => Ok (if meet second_pre task_pre then task_pre else [])).
  (** The body for two other classes, 405-467. *)
  Definition w3_pair_holds (p : nprov) (net : pnet) (first second : pystr) (first_post second_pre : list N) (first' second' : pystr) : result bool :=
    if str_eqb first' second' then Ok false else
    bind (post_set net first') (fun first'_post =>
    bind (pre_set net second') (fun second'_pre =>
    if negb (meet first_post first'_post) then Ok false else
    if negb (meet second_pre second'_pre) then Ok false else
    if arrow first second' then Ok false else
    if arrow first' second then Ok false else
    if negb (arrow first' second') then Ok false else
    bind (mapM (task_places p net first first' second' second_pre) (r_all_event_classes ord 73 (np_info p))) (fun places =>
    Ok (forallb (fun x => existsb (N.eqb x) (concat places ++ second'_pre)) second_pre)))).
  (** The first pair for which it holds ends the loops, 404-470. *)
  Fixpoint any_pair (f : pystr -> pystr -> result bool) (pairs : list (pystr * pystr)) : result bool :=
    match pairs with
    | [] => Ok false
    | (x, y) :: rest => bind (f x y) (fun v => if v then Ok true else any_pair f rest)
    end.
  (** calculate_w3_relation, 392-471. *)
  Definition w3_relation (p : nprov) (net : pnet) (first second : pystr) : result bool :=
    if arrow first second then
      bind (post_set net first) (fun first_post =>
      bind (pre_set net second) (fun second_pre =>
      any_pair (w3_pair_holds p net first second first_post second_pre)
        (list_prod (r_all_event_classes ord 74 (np_info p)) (r_all_event_classes ord 75 (np_info p)))))
    else Ok false.
  (** eliminate_by_reduction_rule_1, alpha_plus_plus_nfc.rs 213-235. *)
  Definition eliminate_rule_1 (p : nprov) (net : pnet) (w2 : list (pystr * pystr)) : list (pystr * pystr) :=
    filter (fun r => let '(a, c) := r in
      negb (existsb (fun b => (w2_relation p net a b && (nfc_causal p b c || arrow b c)) ||
                              (w2_relation p net b c && (nfc_causal p a b || arrow a b)))
              (r_all_event_classes ord 76 (np_info p)))) w2.
End Implicit.

(** * The search for places *)
Section Search.
  Variable ord : nat -> forall A : Type, list A -> list A.
  (** The triples, alpha_plus_plus_nfc.rs 24-36. *)
  Definition first_triples (p : nprov) (loops : list pystr) : list triple :=
    fold_left (hadd triple_eqb)
      (flat_map (fun ab => flat_map (fun c => match triple_new p (fst ab) (snd ab) c with Some t => [t] | None => [] end) (ord 79 _ loops))
        (list_prod (r_all_event_classes ord 77 (np_info p)) (r_all_event_classes ord 78 (np_info p)))) [].
  (** The same, with maximize, 36. *)
  Definition find_triples (fuel : nat) (p : nprov) (loops : list pystr) : result (list triple) :=
    maximize triple_eqb (triple_merge p) ord fuel 1000 (first_triples p loops).
  (** The sets with extensions, 70-109; [sets] are the alpha sets of the places. *)
  Definition first_xsets (p : nprov) (arrow : pystr -> pystr -> bool) (w1 w2 : list (pystr * pystr)) (sets : list aset) : list xset :=
    let classes k := r_all_event_classes ord k (np_info p) in
    let extended := flat_map (fun s =>
      map (fun ab => mkXSet s [fst ab] [snd ab]) (list_prod (classes 80) (classes 81)) ++
      flat_map (fun c => [mkXSet s [c] []; mkXSet s [] [c]]) (classes 82)) sets in
    fold_left (hadd xset_eqb) (filter (xset_valid p arrow w1 w2) extended ++ map (fun s => mkXSet s [] []) sets) [].
  (** 110-121. *)
  Definition find_xsets (fuel : nat) (p : nprov) (arrow : pystr -> pystr -> bool) (w1 w2 : list (pystr * pystr)) (sets : list aset) : result (list xset) :=
    maximize xset_eqb (xset_merger p arrow w1 w2) ord fuel 2000 (first_xsets p arrow w1 w2 sets).
  (** The pairs of w3, 141-148. *)
  Definition first_pairs (p : nprov) (w3 : list (pystr * pystr)) : list aset :=
    fold_left (hadd as_eqb)
      (filter (w3_valid p w3) (map (fun ab => as_new (fst ab) (snd ab)) (list_prod (r_all_event_classes ord 83 (np_info p)) (r_all_event_classes ord 84 (np_info p))))) [].
  (** 150-157. *)
  Definition find_pairs (fuel : nat) (p : nprov) (w3 : list (pystr * pystr)) : result (list aset) :=
    maximize as_eqb (w3_merger p w3) ord fuel 3000 (first_pairs p w3).
  (** check_should_add_to_pw, 160-168. *)
  Definition should_add (triples : list triple) (x : aset) : bool :=
    negb (existsb (fun t => (if list_eq_dec str_eq_dec (t_a t) (as_left x) then true else false) &&
                            (if list_eq_dec str_eq_dec (t_b t) (as_right x) then true else false)) triples).
  (** p_w, 159-185. *)
  Definition all_sets (triples : list triple) (xsets : list xset) (pairs : list aset) : list aset :=
    fold_left (hadd as_eqb)
      (filter (should_add triples) (ord 85 _ pairs) ++ filter (should_add triples) (map xset_sets (ord 86 _ xsets)) ++ map triple_sets (ord 87 _ triples)) [].
  (** The net, 187-210; a class without a transition is a panic.  [set_place] keeps a table of the sets which is not in the code. *)
  Definition places_net (info : rinfo) (loops : list pystr) (sets : list aset) (next : N) : result (pnet * N * dict N aset) :=
    let '(nn, ids) := class_transitions (r_all_event_classes ord 88 info ++ ord 89 _ loops) (empty_net, next) in
    loopM (set_place ids) (ord 90 _ sets) (nn, []).
End Search.

(** * All of it *)
Section All.
  Variable ord : nat -> forall A : Type, list A -> list A.
  (** The answers of right_double_arrow_relation of the second provider. *)
  Variable arrow : pystr -> pystr -> bool.
  (** The pairs for which a relation holds, 43-50, 59-66, 129-136. *)
  Definition related_pairs (p : nprov) (holds : pystr -> pystr -> result bool) : result (list (pystr * pystr)) :=
    bind (mapM (fun ab => bind (holds (fst ab) (snd ab)) (fun v => Ok (if v then [ab] else [])))
           (list_prod (r_all_event_classes ord 91 (np_info p)) (r_all_event_classes ord 92 (np_info p)))) (fun l => Ok (concat l)).
  (** add_additional_causal_relation for all pairs, 52-54, 123-125. *)
  Definition add_all (p : nprov) (pairs : list (pystr * pystr)) : nprov := fold_left (fun p r => add_causal p (fst r) (snd r)) pairs p.
  (** discover_petri_net_alpha_plus_plus_nfc, 18-211; the net with the counter. *)
  Definition discover_nfc (fuel : nat) (log : names_log) (next : N) : result (pnet * N) :=
    bind (find_transitions_one_length_loop log) (fun loops =>
    bind (nfc_provider (r_create_from ord log false None) log) (fun p0 =>
    bind (find_triples ord fuel p0 loops) (fun triples =>
    bind (discover_petri_net_alpha_plus ord fuel log (nfc_aprovider p0) loops false next) (fun '(net1, next, _) =>
    let info := r_create_from ord log false (Some loops) in
    bind (nfc_provider info log) (fun p =>
    bind (related_pairs p (fun a b => Ok (w1_relation ord arrow p net1 a b))) (fun w1 =>
    let p := add_all p (ord 93 _ w1) in
    bind (discover_petri_net_alpha_plus ord fuel log (nfc_aprovider p) loops false next) (fun '(net2, next, _) =>
    bind (related_pairs p (fun a b => Ok (w2_relation ord arrow p net2 a b))) (fun w2 =>
    let w2 := eliminate_rule_1 ord arrow p net2 w2 in
    bind (discover_petri_net_alpha ord fuel (nfc_aprovider p) next) (fun '(_, next, table) =>
    bind (find_xsets ord fuel p arrow w1 w2 (map snd (ord 94 _ table))) (fun xsets =>
    let p := add_all p (ord 95 _ w2) in
    bind (discover_petri_net_alpha_plus ord fuel log (nfc_aprovider p) loops false next) (fun '(net3, next, _) =>
    bind (related_pairs p (w3_relation ord arrow p net3)) (fun w3 =>
    bind (reduce_w3 ord fuel w3) (fun w3 =>
    bind (find_pairs ord fuel p w3) (fun pairs =>
    bind (places_net ord info loops (all_sets ord triples xsets pairs) next) (fun '(nn, _) => Ok nn))))))))))))))).
End All.
