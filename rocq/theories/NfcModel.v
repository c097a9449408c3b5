(** Relations of the alpha++ NFC algorithm of the backend:
    src/rust/ficus_backend/src/features/discovery/alpha/providers/{alpha_plus_nfc_provider,relations_cache}.rs and the functions
    about the third implicit dependency in alpha/alpha_plus_plus_nfc/alpha_plus_plus_nfc.rs.  The relations w1, w2 and w3
    themselves and the search for places are not modelled.  [ord] is the order in which hash tables are walked over (RInfoModel). *)
From Verif Require Import Py InfoModel ReplayModel RInfoModel AlphaModel.

(** AlphaPlusNfcRelationsProvider without the caches, alpha_plus_nfc_provider.rs 24-32: the additional causal relations, the
    information and the triangles of the provider of alpha+, and the log. *)
Record nprov := mkNProv { np_more : list (pystr * pystr); np_info : rinfo; np_triangles : list (pystr * pystr); np_log : names_log }.
(** AlphaPlusNfcRelationsProvider::new, 89-96; the triangles are counted by alpha_plus_provider.rs 21-34. *)
Definition nfc_provider (info : rinfo) (log : names_log) : result nprov :=
  bind (calculate_triangle_relations log) (fun triangles => Ok (mkNProv [] info triangles log)).
(** add_additional_causal_relation, 483-485. *)
Definition add_causal (p : nprov) (first second : pystr) : nprov :=
  mkNProv (if in_dec pair_eq_dec (first, second) (np_more p) then np_more p else np_more p ++ [(first, second)]) (np_info p) (np_triangles p) (np_log p).
(** direct_relation, 55-57. *)
Definition nfc_direct (p : nprov) (first second : pystr) : bool := r_directly_follows (ri_dfg (np_info p)) first second.
(** triangle_relation, 72-74. *)
Definition nfc_triangle (p : nprov) (first second : pystr) : bool := if in_dec pair_eq_dec (first, second) (np_triangles p) then true else false.
(** causal_relation, 38-47. *)
Definition nfc_causal (p : nprov) (first second : pystr) : bool :=
  if in_dec pair_eq_dec (first, second) (np_more p) then true
  else nfc_direct p first second && (negb (nfc_direct p second first) || nfc_triangle p first second || nfc_triangle p second first).
(** parallel_relation, 49-53. *)
Definition nfc_parallel (p : nprov) (first second : pystr) : bool :=
  nfc_direct p first second && nfc_direct p second first && negb (nfc_triangle p first second || nfc_triangle p second first).
(** unrelated_relation, 59-61, alpha_plus_provider.rs 93-95. *)
Definition nfc_unrelated (p : nprov) (first second : pystr) : bool := negb (nfc_direct p first second) && negb (nfc_direct p second first).

(** RelationsCache, relations_cache.rs 3-5; the table of tables is one table of pairs. *)
Definition rcache := list (pystr * pystr * bool).
(** try_get, relations_cache.rs 12-20. *)
Definition cache_get (c : rcache) (first second : pystr) : option bool := dget pair_eq_dec c (first, second).
(** put, relations_cache.rs 22-33: what is there stays. *)
Definition cache_put (c : rcache) (first second : pystr) (v : bool) : rcache :=
  match cache_get c first second with Some _ => c | None => c ++ [((first, second), v)] end.

Section Relations.
  Variable ord : nat -> forall A : Type, list A -> list A.
  (** left_triangle_relation, alpha_plus_nfc_provider.rs 102-114. *)
  Definition left_triangle (p : nprov) (first second : pystr) : bool :=
    nfc_unrelated p first second && existsb (fun c => nfc_causal p c first && nfc_causal p c second) (r_all_event_classes ord 60 (np_info p)).
  (** right_triangle_relation, 116-128. *)
  Definition right_triangle (p : nprov) (first second : pystr) : bool :=
    nfc_unrelated p first second && existsb (fun c => nfc_causal p first c && nfc_causal p second c) (r_all_event_classes ord 61 (np_info p)).
  (** The loop over the events between, 158-177: unknown classes are skipped, a class in a triangle with the first one is
      unsuitable, and there must be something. *)
  Definition suitable (p : nprov) (first : pystr) (between : list pystr) : bool :=
    let known := filter (fun n => negb (r_event_count (np_info p) n =? 0)) between in
    forallb (fun n => negb (left_triangle p n first || right_triangle p n first)) known && (0 <? length known).
  (** One trace, 147-182: [since] are the events after the last first class instead of its index. *)
  Fixpoint scan_trace (p : nprov) (first second : pystr) (since : option (list pystr)) (events : list pystr) : bool :=
    match events with
    | [] => false
    | n :: rest =>
        if str_eqb n first then scan_trace p first second (Some []) rest
        else if str_eqb n second then
          match since with
          | Some between => if suitable p first between then true else scan_trace p first second None rest
          | None => scan_trace p first second None rest
          end
        else scan_trace p first second (option_map (fun between => between ++ [n]) since) rest
    end.
  (** calculate_right_double_arrow_relation without the cache, 142-186. *)
  Definition double_arrow (p : nprov) (first second : pystr) : bool :=
    if nfc_direct p first second then false else existsb (scan_trace p first second None) (np_log p).
  (** right_double_arrow_relation, 130-140. *)
  Definition right_double_arrow (p : nprov) (c : rcache) (first second : pystr) : bool * rcache :=
    let v := match cache_get c first second with Some v => v | None => double_arrow p first second end in
    (v, cache_put c first second v).
  (** concave_arrow_relation, 188-190. *)
  Definition concave_arrow (p : nprov) (c : rcache) (first second : pystr) : bool * rcache :=
    if nfc_causal p first second then (true, c) else right_double_arrow p c first second.
End Relations.

Section Closure.
  Variable ord : nat -> forall A : Type, list A -> list A.
  (** A child is put into the set of a class; alpha_plus_plus_nfc.rs 241-245 and 280-284. *)
  Definition put_child (g : dict pystr (list pystr)) (a b : pystr) : dict pystr (list pystr) :=
    match dget str_eq_dec g a with
    | Some children => dset str_eq_dec g a (set_add children b)
    | None => dset str_eq_dec g a [b]
    end.
  (** The graph of the relations, 238-245. *)
  Definition w3_graph (relations : list (pystr * pystr)) : dict pystr (list pystr) :=
    fold_left (fun g r => put_child g (fst r) (snd r)) (ord 62 _ relations) [].
  (** The classes of the relations, 239, 247-248. *)
  Definition w3_classes (relations : list (pystr * pystr)) : list pystr :=
    fold_left (fun s r => set_add (set_add s (fst r)) (snd r)) (ord 62 _ relations) [].
  (** children.contains(second_class), 255-259 and 267-268. *)
  Definition has_child (g : dict pystr (list pystr)) (a b : pystr) : bool :=
    match dget str_eq_dec g a with Some children => str_mem b children | None => false end.
  (** The search, 261-277; nothing remembers the classes which were in the queue. *)
  Fixpoint search (g : dict pystr (list pystr)) (second : pystr) (fuel : nat) (q : list pystr) : result bool :=
    match fuel with
    | 0 => Err Diverges
    | S fuel' =>
        match q with
        | [] => Ok false
        | current :: rest =>
            match dget str_eq_dec g current with
            | Some children => if str_mem second children then Ok true else search g second fuel' (rest ++ ord 63 _ children)
            | None => search g second fuel' rest
            end
        end
    end.
  (** One pair of classes, 255-285. *)
  Definition closure_step (g : dict pystr (list pystr)) (fuel : nat) (closure : dict pystr (list pystr)) (ab : pystr * pystr) : result (dict pystr (list pystr)) :=
    if has_child g (fst ab) (snd ab) then Ok closure
    else bind (search g (snd ab) fuel [fst ab]) (fun found => Ok (if found then put_child closure (fst ab) (snd ab) else closure)).
  (** construct_w3_transitive_closure_cache, 237-290. *)
  Definition w3_closure (fuel : nat) (relations : list (pystr * pystr)) : result (dict pystr (list pystr)) :=
    let g := w3_graph relations in
    let classes := w3_classes relations in
    loopM (closure_step g fuel) (list_prod (ord 64 _ classes) (ord 65 _ classes)) [].
  (** eliminate_w3_relations_by_rule_2, 292-305. *)
  Definition eliminate_rule_2 (relations : list (pystr * pystr)) (closure : dict pystr (list pystr)) : list (pystr * pystr) :=
    let to_remove := filter (fun r => has_child closure (fst r) (snd r)) (ord 66 _ relations) in
    filter (fun r => if in_dec pair_eq_dec r to_remove then false else true) relations.
  (** Both, as they are called, 138-139. *)
  Definition reduce_w3 (fuel : nat) (relations : list (pystr * pystr)) : result (list (pystr * pystr)) :=
    bind (w3_closure fuel relations) (fun closure => Ok (eliminate_rule_2 relations closure)).
End Closure.
