(** Properties C37 and C38: pipelines and their combinators. *)
From Verif Require Import Py LogModel HeapModel HeapSpec CtxModel PipeModel PipeSpec PipeProofs.

(** Pipeline(...): None is skipped, anything that is not a part (a Pipeline, for instance) raises. *)
Theorem C37_construction : forall X (args : list (pipe_arg X)),
  (In ArgOther args -> new_pipeline args = Err TypeError) /\
  (~ In ArgOther args -> new_pipeline args = Ok (flat_map (fun a => match a with ArgPart p => [p] | _ => [] end) args)).
Proof. intros X. exact construction_proof. Qed.
Print Assumptions C37_construction.

(** Execution: the colours are forgotten, then the parts run from left to right, each on what the
    one before returned; the first exception ends it and no later part runs. *)
Theorem C37_sequential : forall X (ps : list (part X)) v w w' r, exec_pipeline ps v w = (w', r) <->
  let w0 := mkWorld (w_heap w) [] (w_rest w) in
  (exists v', r = Ok v' /\ chain ps v w0 v' w') \/
  (exists e qs p rs v1 w1, r = Err e /\ ps = qs ++ p :: rs /\ chain qs v w0 v1 w1 /\ exec_part p v1 w1 = (w', Err e)).
Proof. intros X. exact sequential_proof. Qed.
Print Assumptions C37_sequential.

(** One pipeline or two in a row: no difference, provided the second half does not depend on the
    colours used before. *)
Theorem C37_split : forall X (ps qs : list (part X)),
  (forall v w, run_parts exec_part qs v (mkWorld (w_heap w) [] (w_rest w)) = run_parts exec_part qs v w) ->
  forall v w, exec_pipeline (ps ++ qs) v w = abind (exec_pipeline ps v) (exec_pipeline qs) w.
Proof.
  intros X ps qs Hq v w. rewrite split_proof. unfold abind. destruct (exec_pipeline ps v w) as [w1 [v1|e]]; [|reflexivity].
  unfold exec_pipeline, run_pipeline, abind, reset_colors. now rewrite Hq.
Qed.
Print Assumptions C37_split.

(** A part that takes a colour, and a part that reports how many are taken. *)
Definition take_color : part unit := Prim (fun v w => (mkWorld (w_heap w) (str "#000000" :: w_colors w) (w_rest w), Ok v)).
Definition count_colors : part unit := Prim (fun v w => (w, Ok (HAtom (VInt (Z.of_nat (length (w_colors w))))))).
Definition empty_world : world unit := mkWorld (mkHeap (fun _ => None) 0) [] tt.

(** In general there is: a nested pipeline forgets the colours. *)
Theorem C37_split_refuted : exists (ps qs : list (part unit)) v w,
  exec_pipeline (ps ++ qs) v w <> abind (exec_pipeline ps v) (exec_pipeline qs) w.
Proof. exists [take_color], [count_colors], py_none, empty_world. vm_compute. intro E. discriminate. Qed.
Print Assumptions C37_split_refuted.

Example C37_case : new_pipeline [ArgPart take_color; ArgNone; ArgPart count_colors] = Ok [take_color; count_colors] /\
  snd (exec_pipeline [take_color; take_color; count_colors] py_none empty_world) = Ok (HAtom (VInt 2)).
Proof. split; reflexivity. Qed.

(** Whatever is reached by a pipeline of confined parts is reached from its input (or is known to the
    parts' own closures). *)
Theorem C38_confined : forall X (G : loc -> Prop) (parts : list (part X)), (forall p, In p parts -> part_confined G p) ->
  forall v, confined G (vref v) vref (exec_pipeline parts v).
Proof. intros X G. exact (exec_pipeline_confined_proof X G). Qed.
Print Assumptions C38_confined.

(** WithInputCopy: the inner pipeline works on a new context with the same entries; afterwards the
    very input is returned, with the same entries, also when the inner pipeline raised. *)
Theorem C38_input_copy : forall X (G : loc -> Prop) (parts : list (part X)) w w' r ctx d,
  (forall p, In p parts -> part_confined G p) -> closed (w_heap w) -> (forall x, G x -> x < next (w_heap w)) ->
  private G (w_heap w) ctx d ->
  exec_part (InputCopy parts) (HRef ctx) w = (w', r) ->
  cells (w_heap w') ctx = Some (OCtx d) /\
  exists c w1 r1, started w d c w1 /\ exec_pipeline parts (HRef c) w1 = (w', r1) /\
    r = match r1 with Ok _ => Ok (HRef ctx) | Err e => Err e end.
Proof. intros X G. exact (input_copy_proof X G). Qed.
Print Assumptions C38_input_copy.

(** ParallelPipeline: every branch starts on its own new context with the entries of the input,
    whatever the earlier branches did to theirs; the input keeps its entries; the result is the last
    branch's (None without branches). *)
Theorem C38_parallel : forall X (G : loc -> Prop) (ps : list (list (part X))) w w' r ctx d,
  (forall q, In q ps -> forall p, In p q -> part_confined G p) -> closed (w_heap w) ->
  (forall x, G x -> x < next (w_heap w)) -> private G (w_heap w) ctx d ->
  exec_part (Parallel ps) (HRef ctx) w = (w', r) ->
  cells (w_heap w') ctx = Some (OCtx d) /\ branches ctx d ps py_none w w' r.
Proof. intros X G. exact (parallel_proof X G). Qed.
Print Assumptions C38_parallel.

(** IfPipeline: the identity when the condition is false, the pipeline when it is true. *)
Theorem C38_if : forall X cond (p : list (part X)) v w w1 b, cond v w = (w1, Ok b) ->
  exec_part (IfPipe cond p) v w = if b then exec_pipeline p v w1 else (w1, Ok v).
Proof. intros X cond p v w w1 b E. cbn [exec_part]. unfold abind at 1. rewrite E. destruct b; reflexivity. Qed.
Print Assumptions C38_if.

(** WithTemporaryInput: the pipeline gets the transformed input, the merger the very input and what the pipeline returned;
    the first exception of the three ends it. *)
Theorem C38_temporary_input : forall X tr mg (p : list (part X)) v w w' r,
  exec_part (TempInput tr mg p) v w = (w', r) <->
  (exists t w1 o w2, tr v w = (w1, Ok t) /\ exec_pipeline p t w1 = (w2, Ok o) /\ mg v o w2 = (w', r)) \/
  (exists t w1 e, tr v w = (w1, Ok t) /\ exec_pipeline p t w1 = (w', Err e) /\ r = Err e) \/
  (exists e, tr v w = (w', Err e) /\ r = Err e).
Proof.
  intros X tr mg p v w w' r. cbn [exec_part]. unfold abind at 1. destruct (tr v w) as [w1 [t|e]].
  - unfold abind at 1. fold (exec_pipeline p t). destruct (exec_pipeline p t w1) as [w2 [o|e]] eqn:E.
    + split; [intros H; left; exists t, w1, o, w2; tauto|].
      intros [(t' & w1' & o' & w2' & H1 & H2 & H3)|[(t' & w1' & e & H1 & H2 & _)|(e & H1 & _)]]; [|congruence|congruence].
      injection H1 as <- <-. rewrite E in H2. injection H2 as <- <-. exact H3.
    + split; [intros H; injection H as <- <-; right; left; exists t, w1, e; tauto|].
      intros [(t' & w1' & o' & w2' & H1 & H2 & _)|[(t' & w1' & e' & H1 & H2 & ->)|(e' & H1 & _)]]; [congruence| |congruence].
      injection H1 as <- <-. congruence.
  - split; [intros H; injection H as <- <-; right; right; exists e; tauto|].
    intros [(t' & w1' & o' & w2' & H1 & _)|[(t' & w1' & e' & H1 & _)|(e' & H1 & ->)]]; congruence.
Qed.
Print Assumptions C38_temporary_input.

(** A part that adds an entry, a part that removes one, a part that reports whether it is there. *)
Definition put_part (k : pystr) (v : hv) : part unit := Prim (fun c => lift (with_value k v c)).
Definition remove_part (k : pystr) : part unit := Prim (fun c => lift (hbind (ctx_remove k c) (fun _ => ret c))).
Definition has_part (k : pystr) : part unit := Prim (fun c => lift (hbind (has_value k c) (fun b => ret (HAtom (VBool b))))).
Definition ex_world : world unit :=
  mkWorld (mkHeap (fun l => if l =? 0 then Some (OCtx [(str "a", HAtom (VInt 1))]) else None) 1) [] tt.

Lemma ctx_values_hc G c : @hconfined G (dict pystr hv) (vref c) (flat_map (fun kv => vref (snd kv))) (ctx_values c).
Proof.
  unfold ctx_values. eapply hc_bind; [apply hc_deref|]. intros []; try apply hc_fail. apply hc_ret. cbn. apply incl_appl, incl_refl.
Qed.
Lemma put_part_confined k : part_confined (fun _ => False) (put_part k (HAtom (VInt 2))).
Proof.
  constructor. intro c. apply confined_lift. unfold with_value. eapply hc_bind; [apply ctx_values_hc|]. intro d. eapply hc_bind with (out1 := fun _ => []).
  - destruct c as [a|l]; cbn [ctx_poke]; [apply hc_fail|]. apply hc_poke; [apply in_or_app; right; now left|].
    cbn [refs]. intros x Hx. apply in_or_app. left. apply in_flat_map in Hx. destruct Hx as ([k' v'] & Hin & Hv). apply in_flat_map. exists (k', v'). split; [|exact Hv].
    clear -Hin Hv. induction d as [|[k0 v0] d IH]; cbn in Hin.
    + destruct Hin as [[= <- <-]|[]]. destruct Hv.
    + destruct (str_eq_dec k k0); [destruct Hin as [[= <- <-]|Hin]; [destruct Hv|now right]|]. destruct Hin as [<-|Hin]; [now left|right; auto].
  - intros []. apply hc_ret. cbn. apply incl_appr, incl_refl.
Qed.
Lemma ex_world_ok : closed (w_heap ex_world) /\ private (fun _ => False) (w_heap ex_world) 0 [(str "a", HAtom (VInt 1))].
Proof.
  split.
  - split; cbn; intros l; destruct (l =? 0) eqn:E; try (intros; discriminate); intros; auto.
    + apply Nat.eqb_eq in E. lia.
    + injection H as <-. destruct H0.
  - split; [reflexivity|]. cbn. tauto.
Qed.

(** Two branches add the entry, the third still does not see it; afterwards the input does not have it. *)
Example C38_case :
  let p := [put_part (str "b") (HAtom (VInt 2))] in
  exec_part (Parallel [p; p; [has_part (str "b")]]) (HRef 0) ex_world =
    (fst (exec_part (Parallel [p; p; [has_part (str "b")]]) (HRef 0) ex_world), Ok (HAtom (VBool false))) /\
  snd (exec_part (Parallel []) (HRef 0) ex_world) = Ok py_none /\
  let '(w', r) := exec_part (InputCopy (p ++ [remove_part (str "a")])) (HRef 0) ex_world in
    r = Ok (HRef 0) /\ cells (w_heap w') 0 = Some (OCtx [(str "a", HAtom (VInt 1))]) /\
    cells (w_heap w') 1 = Some (OCtx [(str "b", HAtom (VInt 2))]).
Proof. vm_compute. repeat split. Qed.

(** The merger puts what the pipeline said about the temporary input into the very input. *)
Example C38_temporary_input_case :
  let '(w', r) := exec_part (TempInput (fun c => lift (copy_any c)) (fun c o => lift (with_value (str "seen") o c)) [remove_part (str "a"); has_part (str "a")]) (HRef 0) ex_world in
  r = Ok (HRef 0) /\ cells (w_heap w') 0 = Some (OCtx [(str "a", HAtom (VInt 1)); (str "seen", HAtom (VBool false))]).
Proof. vm_compute. split; reflexivity. Qed.
