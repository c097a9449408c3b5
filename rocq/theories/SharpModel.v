(** The alpha sharp algorithm of the backend, as far as it goes: src/rust/ficus_backend/src/features/discovery/alpha/alpha_sharp.rs and
    alpha/providers/{alpha_sharp_provider,alpha_plus_provider}.rs.  It finds tuples of sets and prints them; no net is made.
    [ord] is the order in which hash tables are walked over (RInfoModel).  Each of the two sets of a pair in a tuple has one name, as
    only try_create_new makes pairs and uniting and cloning tuples keeps the number of names; so a pair of sets is a pair of names.
    Equality by hashes is equality of what is hashed. *)
From Verif Require Import Py InfoModel HashModel ReplayModel RInfoModel AlphaModel.

(** AlphaSharpRelationsProvider, alpha_sharp_provider.rs 7-10: the information and the triangles of the provider of alpha+. *)
Record sprov := mkSProv { sp_info : rinfo; sp_triangles : list (pystr * pystr) }.
(** new, 90-97, and alpha_plus_provider.rs 21-34. *)
Definition sharp_provider (info : rinfo) (log : names_log) : result sprov :=
  bind (calculate_triangle_relations log) (fun triangles => Ok (mkSProv info triangles)).
(** direct_relation, 21-23, alpha_plus_provider.rs 73-75. *)
Definition sharp_direct (p : sprov) (first second : pystr) : bool := r_directly_follows (ri_dfg (sp_info p)) first second.
(** triangle_relation, 35-37, alpha_plus_provider.rs 87-89. *)
Definition sharp_triangle (p : sprov) (first second : pystr) : bool := if in_dec pair_eq_dec (first, second) (sp_triangles p) then true else false.
(** romb_relation, 39-41, alpha_plus_provider.rs 91-93. *)
Definition sharp_romb (p : sprov) (first second : pystr) : bool := sharp_triangle p first second && sharp_triangle p second first.
(** causal_relation, 13-15, alpha_plus_provider.rs 65-67. *)
Definition sharp_causal (p : sprov) (first second : pystr) : bool :=
  sharp_direct p first second && (negb (sharp_direct p second first) || sharp_romb p first second).
(** parallel_relation, 17-19, alpha_plus_provider.rs 69-71. *)
Definition sharp_parallel (p : sprov) (first second : pystr) : bool :=
  sharp_direct p first second && sharp_direct p second first && negb (sharp_romb p first second).

(** * Tuples *)

(** The order of pairs in a BTreeSet, alpha_sharp.rs 11. *)
Definition pair_leb (x y : pystr * pystr) : bool := if str_eqb (fst x) (fst y) then str_leb (snd x) (snd y) else str_leb (fst x) (fst y).
(** BTreeSet: insert, 48-49. *)
Fixpoint pset_insert (x : pystr * pystr) (l : list (pystr * pystr)) : list (pystr * pystr) :=
  match l with
  | [] => [x]
  | y :: r => if pair_eq_dec x y then l else if pair_leb x y then x :: l else y :: pset_insert x r
  end.
(** Collecting into a BTreeSet, 48-49. *)
Definition pset_of (l : list (pystr * pystr)) : list (pystr * pystr) := fold_left (fun s x => pset_insert x s) l [].
(** AlphaSharpTuple, 13-17. *)
Record sharp := mkSharp { s_in : list (pystr * pystr); s_out : list (pystr * pystr) }.
(** What is hashed, 116-132: the bytes of the names, with nothing between them. *)
Definition sharp_key (t : sharp) : list N := flat_map (fun x => fst x ++ snd x) (s_in t) ++ flat_map (fun x => fst x ++ snd x) (s_out t).
(** ==, 134-138. *)
Definition sharp_eqb (x y : sharp) : bool := if list_eq_dec N.eq_dec (sharp_key x) (sharp_key y) then true else false.
(** clone, 189-207: the first set of each pair is taken for both. *)
Definition sharp_clone (t : sharp) : sharp :=
  mkSharp (pset_of (map (fun x => (fst x, fst x)) (s_in t))) (pset_of (map (fun x => (fst x, fst x)) (s_out t))).
(** A pair, 149-172. *)
Definition pair_string (x : pystr * pystr) : pystr := str "({" ++ fst x ++ str "}, {" ++ snd x ++ str "})".
(** to_string, 142-186. *)
Definition sharp_string (t : sharp) : pystr :=
  str "({" ++ comma_items (map pair_string (s_in t)) ++ str "}, {" ++ comma_items (map pair_string (s_out t)) ++ str "})".
(** A line for a pair, 227. *)
Definition pair_line (x : pystr * pystr) : pystr := str "(" ++ fst x ++ str ", " ++ snd x ++ str ")".

(** * maximize with a clone which is not the same *)
Section Cloned.
  Context {T : Type}.
  Variable eqb : T -> T -> bool.
  Variable merger : T -> T -> option T.
  Variable clone : T -> T.
  (** One round of the loop, alpha/utils.rs 11-39; None is the break. *)
  Definition cloned_round (vec : list T) : option (list T) :=
    let n := length vec in
    let '(new_elements, merged_indices, any_change) :=
      fold_left (max_pair eqb merger vec) (list_prod (seq 0 n) (seq 0 n)) ([], [], false) in
    if any_change then
      Some (fold_left (fun new i => if existsb (Nat.eqb i) merged_indices then new
                                    else match nth_error vec i with Some x => hadd eqb new (clone x) | None => new end) (seq 0 n) new_elements)
    else None.
  Variable ord : nat -> forall A : Type, list A -> list A.
  (** maximize, alpha/utils.rs 4-43; [k] numbers the rounds. *)
  Fixpoint maximize_cloned (fuel : nat) (k : nat) (current : list T) : result (list T) :=
    match fuel with
    | 0 => Err Diverges
    | S fuel' => match cloned_round (ord k _ current) with None => Ok current | Some new => maximize_cloned fuel' (S k) new end
    end.
End Cloned.

Section Sharp.
  Variable ord : nat -> forall A : Type, list A -> list A.
  (** advanced_ordering_relation, alpha_sharp_provider.rs 43-64. *)
  Definition sharp_advanced (p : sprov) (first second : pystr) : bool :=
    sharp_causal p first second &&
    let classes := r_all_event_classes ord 96 (sp_info p) in
    existsb (fun x => existsb (fun y =>
      sharp_causal p first x && sharp_causal p y second && negb (sharp_direct p y x) && negb (sharp_parallel p x second) && negb (sharp_parallel p first y))
      classes) classes.
  (** real_causal_dependency, 66-68. *)
  Definition sharp_real (p : sprov) (first second : pystr) : bool := sharp_causal p first second && negb (sharp_advanced p first second).
  (** redundant_advanced_ordering_relation, 70-87. *)
  Definition sharp_redundant (p : sprov) (first second : pystr) : bool :=
    let classes := r_all_event_classes ord 97 (sp_info p) in
    existsb (fun c => existsb (fun d =>
      negb (str_eqb c first) && negb (str_eqb d second) &&
      (sharp_causal p c d && sharp_advanced p first d && sharp_advanced p c second)) classes) classes.
  (** The pairs of the loops with i < j, alpha_sharp.rs 78-95; any_parallel_items, 100-113. *)
  Fixpoint all_parallel (p : sprov) (l : list pystr) : bool :=
    match l with [] => true | x :: r => forallb (sharp_parallel p x) r && all_parallel p r end.
  (** valid, 58-98. *)
  Definition sharp_valid (p : sprov) (t : sharp) : bool :=
    forallb (fun i => forallb (fun o => sharp_advanced p (fst i) (snd o) && negb (sharp_parallel p (snd i) (fst o))) (s_out t)) (s_in t) &&
    all_parallel p (map fst (s_in t)) && all_parallel p (map snd (s_out t)).
  (** try_create_new, 28-43. *)
  Definition sharp_new (p : sprov) (p_in p_out : pystr * pystr) : option sharp :=
    let t := mkSharp [p_in] [p_out] in if sharp_valid p t then Some t else None.
  (** try_merge, 45-56. *)
  Definition sharp_merge (p : sprov) (x y : sharp) : option sharp :=
    let new := mkSharp (pset_of (s_in x ++ s_in y)) (pset_of (s_out x ++ s_out y)) in
    if sharp_valid p new then Some new else None.
  (** The pairs, 215-224. *)
  Definition sharp_pairs (p : sprov) : list (pystr * pystr) :=
    let classes := r_all_event_classes ord 98 (sp_info p) in
    filter (fun r => sharp_advanced p (fst r) (snd r) && negb (sharp_redundant p (fst r) (snd r))) (list_prod classes classes).
  (** The first tuples, 230-240. *)
  Definition first_sharps (p : sprov) : list sharp :=
    let classes := r_all_event_classes ord 98 (sp_info p) in
    fold_left (hadd sharp_eqb)
      (flat_map (fun r => flat_map (fun x => flat_map (fun y =>
         match sharp_new p (fst r, x) (y, snd r) with Some t => [t] | None => [] end) classes) classes) (ord 99 _ (sharp_pairs p))) [].
  (** 246. *)
  Definition find_sharps (fuel : nat) (p : sprov) : result (list sharp) :=
    maximize_cloned sharp_eqb (sharp_merge p) sharp_clone ord fuel 4000 (first_sharps p).
  (** discover_petri_net_alpha_sharp, 209-251: the lines which are printed.  The names which follow themselves are found but not used. *)
  Definition discover_sharp (fuel : nat) (log : names_log) : result (list pystr) :=
    bind (find_transitions_one_length_loop log) (fun _ =>
    bind (sharp_provider (r_create_from ord log false None) log) (fun p =>
    bind (find_sharps fuel p) (fun current =>
    Ok (map pair_line (ord 99 _ (sharp_pairs p)) ++ map sharp_string (ord 100 _ (first_sharps p)) ++ map sharp_string (ord 101 _ current))))).
End Sharp.
