(** Vocabulary for C55: reports on activities. *)
From Coq Require Import Permutation Sorted.
From Verif Require Import Py XesModel LogModel HashModel PatternModel PatternSpec TreeModel TreeSpec ActModel ActSpec ActLogModel ActLogSpec ReportModel.

(** The nodes d steps below the given ones. *)
Fixpoint depth_ (d : nat) (l : list (anode ndata)) : list (anode ndata) :=
  match d with O => l | S d' => depth_ d' (flat_map an_children l) end.
(** Every node before its children, the last child first. *)
Fixpoint backwards (a : anode ndata) : list (anode ndata) :=
  match a with ANode _ _ c => a :: flat_map (fun x => x) (rev (map backwards c)) end.

(** The first element for every id. *)
Fixpoint firsts (l : list ndata) : list ndata :=
  match l with
  | [] => []
  | x :: r => x :: filter (fun y => negb (N.eqb (nd_id y) (nd_id x))) (firsts r)
  end.

(** Position [j] lies in the instance. *)
Definition covers (j : nat) (x : inst) : bool := (in_start x <=? j) && (j <? in_start x + in_length x).
(** The event at position [j] marked with the last instance that covers it. *)
Definition marked (l : list inst) (j : nat) (e : event) : event :=
  match find (covers j) (rev l) with
  | Some x => eset e activity_key (VStr (nd_unique (an_data (in_node x))))
  | None => e
  end.
(** The instance ends within [n] events. *)
Definition fits (n : nat) (x : inst) : Prop := in_length x = 0 \/ in_start x + in_length x <= n.

(** The text for one level in the file of names. *)
Definition level_section (k : Z) (names : list pystr) : pystr :=
  str "ACTIVITIES LEVEL " ++ show_int k ++ [10; 10]%N ++ repeat 61%N 196 ++ [10%N] ++
  flat_map (fun n => n ++ [10%N]) names ++ repeat 61%N 196 ++ [10; 10]%N.

(** Positions of a trace outside all instances. *)
Definition free_positions (l : list inst) (t : trace) : list nat := filter (fun j => negb (covered_b l j)) (seq 0 (length (t_events t))).

(** The line of a node in the file of instances' names. *)
Definition name_line (n : ndata) : pystr := nd_unique n ++ str "=" ++ nd_name n ++ [10%N].
(** What is written of an instance, and names that can be told apart from what follows. *)
Definition tag (x : inst) : pystr * nat * nat := (nd_unique (an_data (in_node x)), in_start x, in_length x).
Definition tag_ok (x : inst) : Prop := ~ In 44%N (nd_unique (an_data (in_node x))) /\ ~ In 10%N (nd_unique (an_data (in_node x))).
