(** What executing pipelines means, and what a part can reach. *)
From Verif Require Import Py LogModel HeapModel HeapSpec PipeModel.

(** What a program that knows the objects [K] can do, and what it knows afterwards. *)
Inductive steps : (loc -> Prop) -> heap -> (loc -> Prop) -> heap -> Prop :=
| steps_done (K K' : loc -> Prop) h : (forall x, K' x -> K x) -> steps K h K' h
| steps_read (K K' : loc -> Prop) h h' l o x : K l -> cells h l = Some o -> In x (refs o) ->
    steps (fun y => y = x \/ K y) h K' h' -> steps K h K' h'
| steps_new (K K' : loc -> Prop) h h' o : (forall x, In x (refs o) -> K x) ->
    steps (fun y => y = next h \/ K y) (fst (alloc o h)) K' h' -> steps K h K' h'
| steps_write (K K' : loc -> Prop) h h' l o : K l -> (forall x, In x (refs o) -> K x) ->
    steps K (fst (poke l o h)) K' h' -> steps K h K' h'.

Section Spec.
  Variable X : Type.
  Notation world := (world X).
  Notation act := (act X).

  (** [n] parts executed one after the other: [vs] are the values passed along. *)
  Inductive chain : list (part X) -> hv -> world -> hv -> world -> Prop :=
  | chain_nil v w : chain [] v w v w
  | chain_cons p ps v w v1 w1 v2 w2 : exec_part p v w = (w1, Ok v1) -> chain ps v1 w1 v2 w2 -> chain (p :: ps) v w v2 w2.

  (** A computation that reaches only what it is given and the objects [G] (those its closures refer to). *)
  Definition confined {A} (G : loc -> Prop) (given : list loc) (out : A -> list loc) (m : act A) : Prop :=
    forall w w' r, closed (w_heap w) -> (forall x, In x given \/ G x -> x < next (w_heap w)) -> m w = (w', r) ->
    exists K', steps (fun x => In x given \/ G x) (w_heap w) K' (w_heap w') /\
      (forall x, G x -> K' x) /\ (forall a, r = Ok a -> forall x, In x (out a) -> K' x).

  (** Parts whose functions are confined. *)
  Inductive part_confined (G : loc -> Prop) : part X -> Prop :=
  | pc_prim f : (forall v, confined G (vref v) vref (f v)) -> part_confined G (Prim f)
  | pc_parallel ps : (forall q, In q ps -> forall p, In p q -> part_confined G p) -> part_confined G (Parallel ps)
  | pc_temp tr mg q : (forall v, confined G (vref v) vref (tr v)) -> (forall v r, confined G (vref v ++ vref r) vref (mg v r)) ->
      (forall p, In p q -> part_confined G p) -> part_confined G (TempInput tr mg q)
  | pc_copy q : (forall p, In p q -> part_confined G p) -> part_confined G (InputCopy q)
  | pc_if cond q : (forall v, confined G (vref v) (fun _ => []) (cond v)) -> (forall p, In p q -> part_confined G p) -> part_confined G (IfPipe cond q).

  (** A context that the parts cannot get at except by being given it. *)
  Definition private (G : loc -> Prop) (h : heap) (ctx : loc) (d : dict pystr hv) : Prop :=
    cells h ctx = Some (OCtx d) /\
    forall x, G x \/ In x (refs (OCtx d)) -> ~ reach h x ctx.

  (** A new context with the entries [d]. *)
  Definition started (w : world) (d : dict pystr hv) (c : loc) (w1 : world) : Prop :=
    c = next (w_heap w) /\ cells (w_heap w1) c = Some (OCtx d) /\
    (forall x, x <> c -> cells (w_heap w1) x = cells (w_heap w) x) /\ w_colors w1 = w_colors w /\ w_rest w1 = w_rest w.

  (** Branches executed one after the other, each on its own new context with the entries [d],
      [ctx] holding [d] all the time. *)
  Inductive branches (ctx : loc) (d : dict pystr hv) : list (list (part X)) -> hv -> world -> world -> result hv -> Prop :=
  | br_nil last w : branches ctx d [] last w w (Ok last)
  | br_cons p ps last w c w1 w2 v w' r : cells (w_heap w) ctx = Some (OCtx d) -> started w d c w1 ->
      exec_pipeline p (HRef c) w1 = (w2, Ok v) -> branches ctx d ps v w2 w' r -> branches ctx d (p :: ps) last w w' r
  | br_err p ps last w c w1 w2 e : cells (w_heap w) ctx = Some (OCtx d) -> started w d c w1 ->
      exec_pipeline p (HRef c) w1 = (w2, Err e) -> branches ctx d (p :: ps) last w w2 (Err e).
End Spec.
Arguments chain {X}. Arguments confined {X A}. Arguments part_confined {X}. Arguments started {X}. Arguments branches {X}.
