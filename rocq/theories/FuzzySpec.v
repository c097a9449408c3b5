(** What the fuzzy miner is meant to compute. *)
From Coq Require Import QArith Permutation Relations.
From Verif Require Import Py InfoModel InfoSpec RInfoSpec HeurSpec FuzzyModel.
Open Scope nat_scope.

(** * The log *)
Definition just_names (log : flog) : list (list pystr) := map (map fst) log.
Definition frequency (log : flog) (c : pystr) : nat := count_occ str_eq_dec (concat (just_names log)) c.
Definition follows (log : flog) (a b : pystr) : nat := times (just_names log) a b.
(** The times from an event [a] to the next event [b] of a trace, if there is no other [a] between them. *)
Fixpoint gaps (a b : pystr) (t : list (pystr * Z)) : list Z :=
  match t with
  | [] => []
  | x :: r =>
      (if str_eqb (fst x) a then
         match find (fun y => str_eqb (fst y) a || str_eqb (fst y) b) r with
         | Some y => if str_eqb (fst y) a then [] else [(snd y - snd x)%Z]
         | None => []
         end
       else []) ++ gaps a b r
  end.
(** Their average, or 0. *)
Definition Zsum (l : list Z) : Z := fold_right Z.add 0%Z l.
Definition distance (log : flog) (a b : pystr) : Q :=
  match flat_map (gaps a b) log with [] => 0%Q | l => (inject_Z (Zsum l) / num (length l))%Q end.

(** * Edges *)
(** The names which are frequent enough. *)
Definition shown_names (log : flog) (p : fparams) : list pystr :=
  filter (fun c => if Qlt_le_dec (fp_unary p) (num (frequency log c)) then true else false) (nodup str_eq_dec (concat (just_names log))).
Definition first_edge (log : flog) (p : fparams) (a b : pystr) : Prop :=
  In a (shown_names log p) /\ In b (shown_names log p) /\ (fp_binary p < num (follows log a b))%Q.
(** The mean of the shares of the pair among those which start and end as it does; no number if there are none. *)
Definition row (log : flog) (p : fparams) (a : pystr) : nat := list_sum (map (fun c => follows log a c) (shown_names log p)).
Definition col (log : flog) (p : fparams) (b : pystr) : nat := list_sum (map (fun c => follows log c b) (shown_names log p)).
Definition share (log : flog) (p : fparams) (a b : pystr) (v : Q) : Prop :=
  row log p a <> 0 /\ col log p b <> 0 /\
  (v == (num (follows log a b) / num (row log p a) + num (follows log a b) / num (col log p b)) / 2)%Q.
Definition weak (log : flog) (p : fparams) (a b : pystr) : Prop := exists v, share log p a b v /\ (v < fp_preserve p)%Q.
(** Edges both ways, one of which is weak: only a clearly stronger one stays. *)
Definition conflict (log : flog) (p : fparams) (a b : pystr) : Prop :=
  first_edge log p a b /\ first_edge log p b a /\ (weak log p a b \/ weak log p b a).
Definition wins (log : flog) (p : fparams) (a b : pystr) : Prop :=
  exists u v, share log p a b u /\ share log p b a v /\ (v + fp_ratio p < u)%Q.
Definition second_edge (log : flog) (p : fparams) (a b : pystr) : Prop :=
  first_edge log p a b /\ (conflict log p a b -> wins log p a b).
(** Of the edges into a name those stay which are useful in comparison to the most and the least useful one. *)
Definition useful (log : flog) (p : fparams) (a b : pystr) : Q :=
  (fp_rate p * num (follows log a b) + (1 - fp_rate p) * distance log a b)%Q.
Definition third_edge (log : flog) (p : fparams) (a b : pystr) : Prop :=
  second_edge log p a b /\ exists lo hi, second_edge log p lo b /\ second_edge log p hi b /\
    (forall c, second_edge log p c b -> (useful log p lo b <= useful log p c b)%Q /\ (useful log p c b <= useful log p hi b)%Q) /\
    (((useful log p lo b == useful log p hi b)%Q /\ (fp_edge p <= 1)%Q) \/
     ((useful log p lo b < useful log p hi b)%Q /\ (fp_edge p <= (useful log p a b - useful log p lo b) / (useful log p hi b - useful log p lo b))%Q)).

(** * Clusters *)
(** What a rare name may be put together with: what it has an edge to, and anything with an edge to itself. *)
Definition option_for (log : flog) (p : fparams) (c d : pystr) : Prop := d <> c /\ (third_edge log p c d \/ third_edge log p d d).
Definition clustered (log : flog) (p : fparams) (c : pystr) : Prop :=
  In c (shown_names log p) /\ (num (frequency log c) < fp_node p)%Q /\ exists d, option_for log p c d.
Definition partner (log : flog) (p : fparams) (c d : pystr) : Prop :=
  option_for log p c d /\ forall e, option_for log p c e -> (distance log c e <= distance log c d)%Q.
(** Names are taken one by one; a name comes to its partner or gets a cluster of its own. *)
Inductive joined (log : flog) (p : fparams) : list pystr -> list (list pystr) -> Prop :=
| joined_nil : joined log p [] []
| joined_skip c done blocks : joined log p done blocks -> ~ clustered log p c -> joined log p (done ++ [c]) blocks
| joined_come c d done l B r : joined log p done (l ++ B :: r) -> clustered log p c -> partner log p c d -> In d B ->
    joined log p (done ++ [c]) (l ++ (B ++ [c]) :: r)
| joined_new c d done blocks : joined log p done blocks -> clustered log p c -> partner log p c d -> ~ In d (concat blocks) ->
    joined log p (done ++ [c]) (blocks ++ [[c]]).
(** A cluster whose neighbours on one side are all in clusters is merged with the one of them which is most distant in time. *)
Definition total_distance (log : flog) (B D : list pystr) : Q := fold_right Qplus 0%Q (map (fun cd => distance log (fst cd) (snd cd)) (list_prod B D)).
Definition mean_distance (log : flog) (B D : list pystr) : Q := (total_distance log B D / (num (length B) * num (length D)))%Q.
Definition reaches (edge : pystr -> pystr -> Prop) (B D : list pystr) : Prop := exists c d, In c B /\ In d D /\ edge c d.
Definition ready (edge : pystr -> pystr -> Prop) (blocks : list (list pystr)) (B : list pystr) : Prop :=
  (forall c d, In c B -> edge c d -> In d (concat blocks)) /\ exists c d, In c B /\ ~ In d B /\ edge c d.
Definition out_edge := third_edge.
Definition in_edge (log : flog) (p : fparams) (a b : pystr) : Prop := third_edge log p b a.
Inductive merged (log : flog) (p : fparams) : list (list pystr) -> list (list pystr) -> Prop :=
| merged_some blocks B D rest edge : Permutation blocks (B :: D :: rest) ->
    (edge = out_edge log p \/ edge = in_edge log p /\ ~ ready (out_edge log p) blocks B) ->
    ready edge blocks B -> reaches edge B D ->
    (forall F, In F rest -> reaches edge B F -> (mean_distance log B F <= mean_distance log B D)%Q) ->
    merged log p blocks (rest ++ [B ++ D]).
Definition settled (log : flog) (p : fparams) (blocks : list (list pystr)) : Prop :=
  forall B, In B blocks -> ~ ready (out_edge log p) blocks B /\ ~ ready (in_edge log p) blocks B.
Definition grouped (log : flog) (p : fparams) (blocks : list (list pystr)) : Prop :=
  exists order start, Permutation order (shown_names log p) /\ joined log p order start /\ clos_refl_trans _ (merged log p) start blocks /\ settled log p blocks.

(** * The graph *)
Definition fedge (g : fgraph) (x y : N) : option (option Q) := entry N.eq_dec (fg_connections g) x y.
Inductive fnode := Plain (c : pystr) | Cluster (names : list pystr).
Definition members (u : fnode) : list pystr := match u with Plain c => [c] | Cluster l => l end.
Definition comma_list (l : list pystr) : pystr := match l with [] => [] | x :: r => x ++ flat_map (fun y => str "," ++ y) r end.
Definition label (u : fnode) (s : pystr) : Prop :=
  match u with Plain c => s = c | Cluster l => exists l', Permutation l' l /\ s = str "Cluster[" ++ comma_list l' ++ str "]" end.
(** The edge from one node to another one: none if no names are connected, else the number of times these follow one another. *)
Definition bundle (log : flog) (p : fparams) (A B : list pystr) (e : option (option Q)) : Prop :=
  exists pairs, NoDup pairs /\ (forall a b, In (a, b) pairs <-> In a A /\ In b B /\ third_edge log p a b) /\
    e = match pairs with [] => None | _ => Some (Some (num (list_sum (map (fun ab => follows log (fst ab) (snd ab)) pairs)))) end.
Record fuzzy_graph (log : flog) (p : fparams) (blocks : list (list pystr)) (nodes : list (N * fnode)) (g : fgraph) : Prop := {
  fz_once : NoDup (map fst nodes);
  fz_nodes : exists free, NoDup free /\ (forall c, In c free <-> In c (shown_names log p) /\ ~ clustered log p c) /\
    Permutation (map snd nodes) (map Plain free ++ map Cluster blocks);
  fz_ids : Permutation (dkeys (fg_nodes g)) (map fst nodes);
  fz_labels : forall i u, In (i, u) nodes -> exists s, dget N.eq_dec (fg_nodes g) i = Some (Some s) /\ label u s;
  fz_ends : forall i j, fedge g i j <> None -> In i (map fst nodes) /\ In j (map fst nodes);
  fz_edges : forall i u j v, In (i, u) nodes -> In (j, v) nodes -> i <> j -> bundle log p (members u) (members v) (fedge g i j);
  fz_loops : forall i u, In (i, u) nodes -> match u with Plain c => bundle log p [c] [c] (fedge g i i) | Cluster _ => fedge g i i = None end }.
(** The graph before clusters are looked for. *)
Record edge_graph (log : flog) (p : fparams) (g : fgraph) : Prop := {
  eg_once : NoDup (dkeys (fg_nodes g));
  eg_named : forall i o, dget N.eq_dec (fg_nodes g) i = Some o -> exists c, o = Some c /\ In c (shown_names log p);
  eg_shown : forall c, In c (shown_names log p) -> exists i, dget N.eq_dec (fg_nodes g) i = Some (Some c);
  eg_one : forall i j c, dget N.eq_dec (fg_nodes g) i = Some (Some c) -> dget N.eq_dec (fg_nodes g) j = Some (Some c) -> i = j;
  eg_ends : forall i j, fedge g i j <> None -> In i (dkeys (fg_nodes g)) /\ In j (dkeys (fg_nodes g));
  eg_edges : forall i j a b, dget N.eq_dec (fg_nodes g) i = Some (Some a) -> dget N.eq_dec (fg_nodes g) j = Some (Some b) ->
    match fedge g i j with Some e => third_edge log p a b /\ e = Some (num (follows log a b)) | None => ~ third_edge log p a b end }.
