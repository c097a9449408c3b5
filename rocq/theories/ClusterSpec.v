(** Vocabulary for clusters of traces and activities. *)
From Coq Require Import QArith.
From Verif Require Import Py XesModel WireModel DecodeModel ColorModel ClusterModel.
Close Scope Q_scope.

Definition option_eq_dec {A} (d : forall a b : A, {a = b} + {a <> b}) : forall a b : option A, {a = b} + {a <> b}.
Proof. decide equality. Defined.
(** What belongs to label [k], in order. *)
Definition members {T} (l : list T) (labels : list N) (k : N) : list T :=
  flat_map (fun xk => if (snd xk =? k)%N then [fst xk] else []) (combine l labels).

(** The traces that DBSCAN put into one cluster (Some) or left out (None). *)
Definition found_in {T} (traces : list T) (found : list (option N)) (k : option N) : list T :=
  flat_map (fun xk => if option_eq_dec N.eq_dec (snd xk) k then [fst xk] else []) (combine traces found).

(** A set of colours given to names: no two names share one, and all are known to be in use. *)
Definition sound_holder (h : holder) : Prop :=
  (forall n m c, dget str_eq_dec (ho_names h) n = Some c -> dget str_eq_dec (ho_names h) m = Some c -> n = m) /\
  (forall n c, dget str_eq_dec (ho_names h) n = Some c -> In c (ho_used h)).

(** A colour made of bytes. *)
Definition byte_color (c : rcolor) : Prop :=
  (0 <= fst (fst c) < 256 /\ 0 <= snd (fst c) < 256 /\ 0 <= snd c < 256)%Z.
Definition byte_holder (h : holder) : Prop := forall n c, dget str_eq_dec (ho_names h) n = Some c -> byte_color c.
(** Its usual notation. *)
Definition html (c : rcolor) : pystr := to_hex (Z.to_N (fst (fst c))) (Z.to_N (snd (fst c))) (Z.to_N (snd c)).

(** The cluster of a named activity. *)
Definition in_cluster (processed : list cnode) (labels : list (option N)) (name : pystr) (k : N) : Prop :=
  exists i a, nth_error processed i = Some a /\ cn_name a = name /\ nth_error labels i = Some (Some k).
(** A cluster with at least two activities. *)
Definition crowded (labels : list (option N)) (k : N) : Prop :=
  exists i j, i < j /\ nth_error labels i = Some (Some k) /\ nth_error labels j = Some (Some k).
(** The name [m] under which an activity called [n] is found after the clustering. *)
Definition renamed (processed : list cnode) (labels : list (option N)) (n m : pystr) : Prop :=
  (exists k, in_cluster processed labels n k /\ crowded labels k /\ m = create_cluster_name k) \/
  ((forall k, in_cluster processed labels n k -> ~ crowded labels k) /\ m = n).

(** Position [p] of a trace lies in an instance of an activity called [n]. *)
Definition covered (l : list cinst) (p : nat) (n : pystr) : Prop :=
  exists x, In x l /\ cn_name (ci_node x) = n /\ ci_start x <= p < ci_start x + ci_length x.
(** Instances one after the other, beginning at [from] or later. *)
Fixpoint in_order (from : nat) (l : list cinst) : Prop :=
  match l with
  | [] => True
  | x :: r => from <= ci_start x /\ in_order (ci_start x + ci_length x) r
  end.
(** No two neighbours of the same name touch. *)
Definition joined (l : list cinst) : Prop :=
  forall l1 x y l2, l = l1 ++ x :: y :: l2 ->
    cn_name (ci_node x) <> cn_name (ci_node y) \/ ci_start x + ci_length x <> ci_start y.
(** The events of the repeat set of an activity are there. *)
Definition repeat_in_log (trace_lengths : list nat) (a : cnode) : Prop :=
  match cn_repeat a with
  | None => True
  | Some (t, s, n) => exists len, nth_error trace_lengths t = Some len /\ s + n <= len
  end.

(** The best number of clusters among 2 … objects - 1: the smallest of those with the highest score. *)
Definition best_count (score : nat -> Q) (objects k : nat) : Prop :=
  2 <= k < objects /\ ((-1)%Q < score k)%Q /\
  forall j, 2 <= j < objects -> (score j <= score k)%Q /\ (j < k -> (score j < score k)%Q).

(** The point drawn for a row of coordinates: the first [n] of them, in the plane at least. *)
Definition point {C} (zero : C) (n : nat) (row : list C) : list C := if n =? 1 then firstn 1 row ++ [zero] else firstn n row.
(** A series shows the rows of label [k] in its colour and under its name. *)
Definition shows {C} (zero : C) (n : nat) (rows : list (list C)) (labels : list N) (colors : list rcolor) (k : N) (s : series C) : Prop :=
  se_label s = Some (create_cluster_name k) /\
  (exists i c, nth_error labels i = Some k /\ nth_error colors i = Some c /\ se_color s = Some (html c)) /\
  se_points s = map (point zero n) (members rows labels k).
