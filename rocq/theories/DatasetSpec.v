(** Vocabulary for datasets. *)
From Coq Require Import QArith Sorted.
From Verif Require Import Py XesModel HashModel ClusterModel DrawModel DecodeModel DatasetModel.
Close Scope Q_scope.

(** A number of a column of numbers after scaling: 1 if the column is constant, otherwise its place between
    the least and the greatest. *)
Definition scaled (column : list nat) (x : nat) (q : Q) : Prop :=
  ((forall y, In y column -> y = x) /\ (q == 1)%Q) \/
  exists lo hi, In lo column /\ In hi column /\ (forall y, In y column -> lo <= y <= hi) /\ lo < hi /\
    (q == inject_Z (Z.of_nat (x - lo)) / inject_Z (Z.of_nat (hi - lo)))%Q.

(** A number of things that a f64 holds exactly. *)
Definition small (n : nat) : Prop := (Z.of_nat n < 2 ^ 53)%Z.

(** A dataset shows a table of numbers, one row for each of [objects]: the columns are the classes that
    occur, ascending, and the values are the scaled numbers of [number object class]. *)
Definition tabulates {O} (objects : list O) (occurs : pystr -> Prop) (number : O -> pystr -> nat) (d : dataset Q) : Prop :=
  (forall c, In c (da_columns d) <-> occurs c) /\
  StronglySorted (fun a b => str_leb a b = true /\ a <> b) (da_columns d) /\
  length (da_values d) = length objects /\
  forall i o row, nth_error objects i = Some o -> nth_error (da_values d) i = Some row ->
    Forall2 (fun c q => scaled (map (fun o' => number o' c) objects) (number o c) q) (da_columns d) row.

(** Equal rows. *)
Definition same_row (r s : list Q) : Prop := Forall2 Qeq r s.

(** The activities of a level with their first instances, by name. *)
Definition first_of_level (level : N) (instances : list cinst) (a : cnode) : Prop :=
  exists l1 x l2, instances = l1 ++ x :: l2 /\ ci_node x = a /\ cn_level a = level /\
    forall y, In y l1 -> cn_name (ci_node y) = cn_name a -> cn_level (ci_node y) <> level.

(** The events of the repeat set of an activity. *)
Definition sub_events (log : list (list bevent)) (a : cnode) : list bevent :=
  match cn_repeat a with
  | Some (t, s, n) => firstn n (skipn s (nth t log []))
  | None => []
  end.
(** What is counted of an activity. *)
Definition activity_number (class : bevent -> pystr) (src : activity_source) (log : list (list bevent)) (a : cnode) (c : pystr) : nat :=
  match src with
  | ActClasses => if in_dec str_eq_dec c (map class (sub_events log a)) then 1 else 0
  | ActSubTraces => count_occ str_eq_dec (map class (sub_events log a)) c
  | ActUnderlying => count_occ str_eq_dec (map class (flat_map deepest (sub_events log a))) c
  end.
