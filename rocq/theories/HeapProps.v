(** Property C08: copy and deepcopy of events, traces and logs. *)
From Verif Require Import Py LogModel HashModel EqModel HeapModel HeapSpec HeapProofs.

(** copy.deepcopy of any finite value: it succeeds (given enough stack), the copy shows the same
    content without trace attributes and global values, and afterwards nothing a program does with
    one of the two objects changes the other. *)
Theorem C08_deepcopy : forall h l t, closed h -> looks h (HRef l) t ->
  exists n, forall fuel, n <= fuel ->
  exists h1 m l', deepcopy fuel [] (HRef l) h = (h1, Ok (m, HRef l')) /\
    looks h1 (HRef l) t /\ looks h1 (HRef l') (strip t) /\
    (forall h2, client l' h1 h2 -> (forall x, x < next h -> cells h2 x = cells h x) /\ looks h2 (HRef l) t) /\
    (forall h2, client l h1 h2 -> (forall x, reach h1 l' x -> cells h2 x = cells h1 x) /\ looks h2 (HRef l') (strip t)).
Proof. exact deepcopy_proof. Qed.
Print Assumptions C08_deepcopy.

(** Isolation does not need the copied object to be finite or well formed: whenever deepcopy
    returns, the copy and everything that existed before are separate. *)
Theorem C08_deepcopy_isolated : forall fuel h h1 h2 l m l', closed h -> l < next h ->
  deepcopy fuel [] (HRef l) h = (h1, Ok (m, HRef l')) ->
  (client l' h1 h2 -> forall x, x < next h -> cells h2 x = cells h x) /\
  (client l h1 h2 -> forall x, reach h1 l' x -> cells h2 x = cells h1 x).
Proof. exact deepcopy_isolated_proof. Qed.
Print Assumptions C08_deepcopy_isolated.

(** copy.copy: own containers (lists of traces or events, dicts), shared elements. Overwriting the
    copy's containers in any way is not visible through the original. *)
Theorem C08_copy : forall h l t, closed h -> looks h (HRef l) t ->
  exists h' l', shallow_copy (HRef l) h = (h', Ok (HRef l')) /\
    (forall x, x < next h -> cells h' x = cells h x) /\
    looks h' (HRef l') (strip_top t) /\
    (forall x, In x (containers h' l') -> next h <= x) /\
    (forall x, reach h' l' x -> In x (containers h' l') \/ reach h l x) /\
    (forall h2, (forall x, ~ In x (containers h' l') -> cells h2 x = cells h' x) -> looks h2 (HRef l) t) /\
    (forall tr a e c p g, cells h l = Some (OLog (HRef tr) a e c p g) ->
       exists tr' a' e' c' p' g', cells h' l' = Some (OLog (HRef tr') a' e' c' p' g') /\ cells h' tr' = cells h tr) /\
    (forall ev a, cells h l = Some (OTrace (HRef ev) a) ->
       exists ev' a', cells h' l' = Some (OTrace (HRef ev') a') /\ cells h' ev' = cells h ev).
Proof. exact shallow_copy_proof. Qed.
Print Assumptions C08_copy.

(** Both copies compare equal to the original and hold the same events. *)
Theorem C08_copies_equal : forall tostr show_ext show_cls tuple_hash t L, tree_log t = Some L ->
  exists L' L'', tree_log (strip t) = Some L' /\ tree_log (strip_top t) = Some L'' /\
    log_eq tostr show_ext show_cls tuple_hash L L' = true /\ log_eq tostr show_ext show_cls tuple_hash L L'' = true /\
    map t_events (l_traces L') = map t_events (l_traces L) /\ l_traces L'' = l_traces L.
Proof. exact copies_equal_proof. Qed.
Print Assumptions C08_copies_equal.

(** A log with one trace (with an attribute) that holds the same event object twice. *)
Definition ex_list : list obj :=
  [ OLog (HRef 1) (HRef 2) (HRef 3) (HRef 4) (HRef 5) (HRef 6);
    OList [HRef 7]; ODict []; ODict []; ODict []; ODict []; ODict [(str "g", HRef 12)];
    OTrace (HRef 8) (HRef 9); OList [HRef 10; HRef 10]; ODict [(str "a", HAtom (VInt 1))];
    OEvent (HRef 11); ODict [(concept_name, HAtom (VStr (str "A")))]; ODict [] ].
Definition ex_heap : heap := mkHeap (nth_error ex_list) (length ex_list).
Definition ex_tree : tree :=
  let ev := TEvent [(concept_name, TAtom (VStr (str "A")))] in
  TLog [TTrace [ev; ev] [(str "a", TAtom (VInt 1))]] [] [] [] [] [(str "g", TDict [])].

Lemma ex_closed : closed ex_heap.
Proof.
  split; cbn [next cells ex_heap].
  - intros l Hl. now apply nth_error_None.
  - intros l o m Hl Hm. apply nth_error_In in Hl.
    assert (Hall : forallb (fun o => forallb (fun m => m <? length ex_list) (refs o)) ex_list = true) by reflexivity.
    rewrite forallb_forall in Hall. specialize (Hall _ Hl). rewrite forallb_forall in Hall. now apply Nat.ltb_lt, Hall.
Qed.
Lemma ex_looks : looks ex_heap (HRef 0) ex_tree.
Proof.
  assert (Hev : looks ex_heap (HRef 10) (TEvent [(concept_name, TAtom (VStr (str "A")))])).
  { eapply looks_event; [reflexivity|reflexivity|]. repeat constructor. }
  eapply looks_log; try reflexivity; try (repeat constructor; fail).
  - constructor; [|constructor]. eapply looks_trace; try reflexivity; repeat constructor; exact Hev.
  - constructor; [|constructor]. econstructor; [reflexivity|constructor].
Qed.

(** The copy of the twice occurring event is one object, too. *)
Example C08_case :
  match deepcopy 10 [] (HRef 0) ex_heap with
  | (h1, Ok (_, HRef l')) =>
      match cells h1 l' with
      | Some (OLog (HRef t) _ _ _ _ _) =>
          match cells h1 t with
          | Some (OList [HRef tr]) =>
              match cells h1 tr with
              | Some (OTrace (HRef ev) (HRef at_)) =>
                  match cells h1 ev, cells h1 at_ with
                  | Some (OList [HRef a; HRef b]), Some (ODict []) => (a =? b) && (13 <=? a)
                  | _, _ => false
                  end
              | _ => false end
          | _ => false end
      | _ => false end
  | _ => false end = true.
Proof. vm_compute. reflexivity. Qed.
Example C08_case_equal : exists L, tree_log ex_tree = Some L /\ length (l_traces L) = 1 /\ l_globals L <> [].
Proof. eexists. split; [reflexivity|]. split; [reflexivity|discriminate]. Qed.

(** A shallow copy is not isolated: renaming an event reached through the copy is visible in the
    original. *)
Theorem C08_copy_isolated_refuted : exists h l t h1 l' h2 t2, closed h /\ looks h (HRef l) t /\
  shallow_copy (HRef l) h = (h1, Ok (HRef l')) /\ client l' h1 h2 /\ looks h2 (HRef l) t2 /\ t2 <> t.
Proof.
  assert (Hs : snd (shallow_copy (HRef 0) ex_heap) = Ok (HRef 19)) by (vm_compute; reflexivity).
  assert (Hc : map (cells (fst (shallow_copy (HRef 0) ex_heap))) [0; 1; 2; 3; 4; 5; 6; 7; 8; 9; 10; 11; 12; 13; 19] =
    map Some (ex_list ++ [OList [HRef 7]; OLog (HRef 13) (HRef 14) (HRef 15) (HRef 16) (HRef 17) (HRef 18)])) by (vm_compute; reflexivity).
  destruct (shallow_copy (HRef 0) ex_heap) as [h1 r] eqn:E. cbn [fst snd] in Hs, Hc. subst r.
  unfold ex_list in Hc. cbn [map app] in Hc. injection Hc as C0 C1 C2 C3 C4 C5 C6 C7 C8 C9 C10 C11 C12 C13 C19.
  set (newp := ODict [(concept_name, HAtom (VStr (str "B")))]).
  exists ex_heap, 0, ex_tree, h1, 19, (fst (poke 11 newp h1)), (let ev := TEvent [(concept_name, TAtom (VStr (str "B")))] in
    TLog [TTrace [ev; ev] [(str "a", TAtom (VInt 1))]] [] [] [] [] [(str "g", TDict [])]).
  split; [exact ex_closed|]. split; [exact ex_looks|]. split; [exact E|]. split; [|split].
  - unfold client.
    eapply runs_read with (l := 19) (x := 13); [reflexivity|exact C19|now left|].
    eapply runs_read with (l := 13) (x := 7); [now left|exact C13|now left|].
    eapply runs_read with (l := 7) (x := 8); [now left|exact C7|now left|].
    eapply runs_read with (l := 8) (x := 10); [now left|exact C8|now left|].
    eapply runs_read with (l := 10) (x := 11); [now left|exact C10|now left|].
    eapply runs_write with (l := 11) (o := newp); [now left|intros x []|]. apply runs_done.
  - assert (Hev : looks (fst (poke 11 newp h1)) (HRef 10) (TEvent [(concept_name, TAtom (VStr (str "B")))])).
    { eapply looks_event; [exact C10|reflexivity|]. repeat constructor. }
    eapply looks_log; [exact C0|exact C1| |exact C2| |exact C3| |exact C4| |exact C5| |exact C6|]; try (repeat constructor; fail).
    + constructor; [|constructor]. eapply looks_trace; [exact C7|exact C8| |exact C9|]; repeat constructor; exact Hev.
    + constructor; [|constructor]. econstructor; [exact C12|constructor].
  - discriminate.
Qed.
Print Assumptions C08_copy_isolated_refuted.

(** A deep copy may differ from the original. *)
Theorem C08_deepcopy_same_content_refuted : exists h l t h1 m l' t', closed h /\ looks h (HRef l) t /\
  deepcopy 30 [] (HRef l) h = (h1, Ok (m, HRef l')) /\ looks h1 (HRef l') t' /\ t' <> t.
Proof.
  destruct (deepcopy_content_proof ex_heap 0 ex_tree 30 ex_closed ex_looks) as (h1 & m & l' & E & L & _); [cbn; lia|].
  exists ex_heap, 0, ex_tree, h1, m, l', (strip ex_tree). split; [exact ex_closed|]. split; [exact ex_looks|]. split; [exact E|split; [exact L|discriminate]].
Qed.
Print Assumptions C08_deepcopy_same_content_refuted.
