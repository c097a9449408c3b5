From Coq Require Import Permutation.
From Verif Require Import Py InfoModel ClassModel ClassSpec ClassProofs.

(** C47: with k extractors, the nodes d steps below the roots are the event classes of the log
    promoted by the first k - d extractors, each exactly once; a node is a child of a node one layer up
    exactly when the extractor of that layer maps its class to the class of the other; the nodes of
    the bottom layer have no children.  Whatever the order of iteration of the set of names. *)
Theorem C47_layers : forall (order : list pystr -> list pystr), (forall l, Permutation (order l) l) ->
  forall log exts roots, build_class_tree order log exts = Ok roots ->
  let k := length exts in
  (forall d, d <= k -> NoDup (names_of (level d roots)) /\
     forall m, In m (names_of (level d roots)) <-> exists n, In n (concat log) /\ promote (firstn (k - d) exts) n = Ok m) /\
  (forall d ex p c, d < k -> nth_error exts (k - S d) = Some ex -> In p (level d roots) -> In c (level (S d) roots) ->
     (In c (cn_children p) <-> ex (cn_name c) = Ok (cn_name p))) /\
  (forall p, In p (level k roots) -> cn_children p = []).
Proof. exact tree_proof. Qed.
Print Assumptions C47_layers.

(** C47: the tree is built exactly when the extractors accept every class of the log. *)
Theorem C47_total : forall (order : list pystr -> list pystr), (forall l, Permutation (order l) l) ->
  forall log exts, (exists roots, build_class_tree order log exts = Ok roots) <->
  forall n, In n (concat log) -> exists m, promote exts n = Ok m.
Proof. exact tree_total_proof. Qed.
Print Assumptions C47_total.

Example C47_ex :
  let first (n : pystr) := Ok (firstn 1 n) in
  build_class_tree (@rev _) [[str "A.x"; str "B.y"]; [str "A.y"; str "A.x"]] [(fun n => Ok (firstn 2 n)); first] =
  Ok [CNode (str "A") [CNode (str "A.") [CNode (str "A.y") []; CNode (str "A.x") []]]; CNode (str "B") [CNode (str "B.") [CNode (str "B.y") []]]].
Proof. vm_compute. reflexivity. Qed.
Example C47_perm_ex : forall l : list pystr, Permutation (@rev _ l) l.
Proof. intro l. symmetry. apply Permutation_rev. Qed.
Example C47_fail_ex : build_class_tree (fun l => l) [[str "A"]] [fun n => if str_eqb n (str "A") then Err KeyError else Ok n] = Err KeyError.
Proof. vm_compute. reflexivity. Qed.
