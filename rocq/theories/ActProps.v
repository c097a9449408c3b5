(** Properties C26, C27, C28: instances of activities in traces. *)
From Verif Require Import Py HashModel PatternSpec TreeModel TreeSpec ActModel ActSpec ActProofs.

(** C26: extraction terminates on every log, trace by trace, and its result is ordered, disjoint,
    non-empty and inside the trace, whatever the filter. *)
Theorem C26_extraction_total : forall D (name : D -> pystr) activities narrow accept traces,
  exists r, extract_log name activities narrow accept traces = Some r /\
    Forall2 (fun t l => extract_trace name activities narrow accept t = Some l) traces r.
Proof. exact @log_total_proof. Qed.
Print Assumptions C26_extraction_total.

Theorem C26_instances_ordered : forall D (name : D -> pystr) activities narrow accept trace,
  exists l, extract_trace name activities narrow accept trace = Some l /\ ordered 0 (length trace) l.
Proof. exact @extraction_ordered_proof. Qed.
Print Assumptions C26_instances_ordered.

(** What [ordered] says, spelled out. *)
Theorem C26_ordered_means : forall D (l : list (instance D)) lo hi, ordered lo hi l ->
  (forall x, In x l -> lo <= in_start x /\ 0 < in_length x /\ in_end x <= hi) /\
  (forall i j x y, i < j -> nth_error l i = Some x -> nth_error l j = Some y -> in_end x <= in_start y).
Proof. exact @ordered_within. Qed.
Print Assumptions C26_ordered_means.

(** The result exactly: the greedy segmentation of the trace, each segment reported with its
    smallest covering activity (narrowed on request), filtered. *)
Theorem C26_extraction_exact : forall D (name : D -> pystr) activities narrow accept trace,
  exists segs ys, segments name activities trace 0 segs /\ Forall2 (reported narrow trace) segs ys /\
    extract_trace name activities narrow accept trace = Some (filter accept ys).
Proof. exact @extraction_exact_proof. Qed.
Print Assumptions C26_extraction_exact.

(** The segmentation is determined by its description. *)
Theorem C26_segments_unique : forall D (name : D -> pystr) activities trace i xs ys,
  segments name activities trace i xs -> segments name activities trace i ys -> xs = ys.
Proof. exact @segments_unique_proof. Qed.
Print Assumptions C26_segments_unique.

(** C27 *)
Theorem C27_instance_contents : forall D (name : D -> pystr) activities narrow accept trace l,
  extract_trace name activities narrow accept trace = Some l ->
  forall x, In x l -> included (piece trace (in_start x) (in_length x)) (an_set (in_node x)) /\
    exists a, In a activities /\ included (piece trace (in_start x) (in_length x)) (an_set a) /\
      (in_node x = a \/ narrow = true /\ below (in_node x) a).
Proof. exact @contents_proof. Qed.
Print Assumptions C27_instance_contents.

(** Narrowing ends on every tree and returns what [narrowed] describes. *)
Theorem C27_narrowing : forall D s (a : anode D), exists r, narrow_activity a s = Some r /\ narrowed s a r.
Proof. exact @narrow_proof. Qed.
Print Assumptions C27_narrowing.

(** In a tree of inclusions (as C25 builds them) that is a smallest covering descendant, or the
    activity itself exactly when no descendant covers the classes. *)
Theorem C27_narrowing_in_inclusion_tree : forall D s (a : anode D), inclusion_tree a -> included s (an_set a) ->
  exists r, narrow_activity a s = Some r /\ (r = a \/ below r a) /\ included s (an_set r) /\
    (forall b, below b a -> included s (an_set b) -> length (an_set r) <= length (an_set b)) /\
    (r = a -> forall b, below b a -> ~ included s (an_set b)).
Proof. exact @narrow_tree_proof. Qed.
Print Assumptions C27_narrowing_in_inclusion_tree.

(** C28: with the default filter a position is covered iff its class belongs to some of the given
    activities. *)
Theorem C28_covered_iff_attachable : forall D (name : D -> pystr) activities narrow trace l,
  extract_trace name activities narrow (fun _ => true) trace = Some l ->
  forall j h, nth_error trace j = Some h -> (covered l j <-> exists a, In a activities /\ In h (an_set a)).
Proof. exact @covered_proof. Qed.
Print Assumptions C28_covered_iff_attachable.

(** A forest with a nested activity; 9 is unattachable, 1 2 is narrowed to the child, 1 3 is not,
    4 forces a new instance. *)
Definition act_case : list (anode pystr) :=
  [ANode (str "big") [1;2;3]%N [ANode (str "small") [1;2]%N []]; ANode (str "other") [4]%N []].
Example C26_case :
  extract_trace (fun n => n) act_case true (fun _ => true) [9; 1; 2; 4; 1; 3; 9; 2]%N =
  Some [mkInst (ANode (str "small") [1;2]%N []) 1 2; mkInst (ANode (str "other") [4]%N []) 3 1;
        mkInst (ANode (str "big") [1;2;3]%N [ANode (str "small") [1;2]%N []]) 4 2; mkInst (ANode (str "small") [1;2]%N []) 7 1].
Proof. vm_compute. reflexivity. Qed.
Example C26_switch_case : (* the current activity is replaced by a wider one *)
  extract_trace (fun n => n) [ANode (str "wide") [1;2;3]%N []; ANode (str "x") [1;2]%N []] false (fun i => 1 <? in_length i) [2; 1; 3; 7; 2]%N =
  Some [mkInst (ANode (str "wide") [1;2;3]%N []) 0 3].
Proof. vm_compute. reflexivity. Qed.
Example C27_case : inclusion_tree (ANode (str "big") [1;2;3]%N [ANode (str "small") [1;2]%N []]).
Proof.
  assert (H : forall b, below b (ANode (str "big") [1;2;3]%N [ANode (str "small") [1;2]%N []]) -> b = ANode (str "small") [1;2]%N []).
  { intros b Hb. inversion Hb as [? ? Hc|? b' ? Hb' Hc]; subst.
    - destruct Hc as [<-|[]]. reflexivity.
    - destruct Hc as [<-|[]]. inversion Hb' as [? ? Hc|? b'' ? Hb'' Hc]; subst; destruct Hc. }
  intros b c [->|Hb] Hc; [|rewrite (H b Hb) in Hc; destruct Hc]. destruct Hc as [<-|[]]. intros x [<-|[<-|[]]]; cbn; auto.
Qed.
