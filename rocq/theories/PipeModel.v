(** Pipelines: legacy/pipelines/pipelines.py 1-116. *)
From Verif Require Import Py LogModel HeapModel.

(** None as a value.  legacy/pipelines/pipelines.py 72. *)
Definition py_none : hv := HAtom (VOpaque 0).

Section Pipe.
  (** Whatever else a part can read or change: files, plots, the random generator. *)
  Variable X : Type.

  (** The state of the program: the objects, the colours handed out by
      random_unique_color_provider_instance (legacy/util.py 84-101), and the rest. *)
  Record world := mkWorld { w_heap : heap; w_colors : list pystr; w_rest : X }.

  (** Computations; an exception keeps the changes made before it.  What execute of a part (legacy/pipelines/pipelines.py 34, 47) is here. *)
  Definition act (A : Type) := world -> world * result A.
  (** The end of a method, as in legacy/pipelines/pipelines.py 27. *)
Definition aret {A} (a : A) : act A := fun w => (w, Ok a).
  (** One statement after the other, as in legacy/pipelines/pipelines.py 89-91. *)
Definition abind {A B} (m : act A) (f : A -> act B) : act B :=
    fun w => let '(w', r) := m w in match r with Ok a => f a w' | Err e => (w', Err e) end.
  (** A computation that only touches objects.  As in legacy/pipelines/pipelines.py 74 and 99. *)
  Definition lift {A} (m : H A) : act A :=
    fun w => let '(h, r) := m (w_heap w) in (mkWorld h (w_colors w) (w_rest w), r).

  (** RandomUniqueColorsProvider.reset, legacy/util.py 97-98. *)
  Definition reset_colors : act unit := fun w => (mkWorld (w_heap w) [] (w_rest w), Ok tt).

  (** copy.copy(x): immutable values are returned as they are.  legacy/pipelines/pipelines.py 74, 99. *)
  Definition copy_any (v : hv) : H hv := match v with HAtom _ => ret v | HRef _ => shallow_copy v end.

  (** Pipeline parts; a Pipeline (legacy/pipelines/pipelines.py 8-10) is its list of parts.  [Prim] is any other PipelinePart,
      given by its execute method. *)
  Inductive part :=
  | Prim (execute : hv -> act hv)
  | Parallel (pipelines : list (list part))
  | TempInput (initial_input_transformer : hv -> act hv) (output_merger : hv -> hv -> act hv) (pipeline : list part)
  | InputCopy (pipeline : list part)
  | IfPipe (condition : hv -> act bool) (pipeline : list part).

  (** The loop of Pipeline.execute, legacy/pipelines/pipelines.py 24-27. *)
  Section Run.
    Variable ex : part -> hv -> act hv.
    (** legacy/pipelines/pipelines.py 24-27. *)
Fixpoint run_parts (parts : list part) (current_input : hv) : act hv :=
      match parts with
      | [] => aret current_input
      | p :: r => abind (ex p current_input) (run_parts r)
      end.
    (** Pipeline.execute, legacy/pipelines/pipelines.py 21-27. *)
    Definition run_pipeline (parts : list part) (input : hv) : act hv := abind reset_colors (fun _ => run_parts parts input).
    (** The loop of ParallelPipeline.execute, legacy/pipelines/pipelines.py 71-76. *)
    Fixpoint run_branches (ps : list (list part)) (current_input last_output : hv) : act hv :=
      match ps with
      | [] => aret last_output
      | p :: r => abind (lift (copy_any current_input)) (fun c => abind (run_pipeline p c) (run_branches r current_input))
      end.
  End Run.

  (** execute of every part: legacy/pipelines/pipelines.py 71-76, 88-91, 98-101, 112-116. *)
  Fixpoint exec_part (p : part) (current_input : hv) {struct p} : act hv :=
    match p with
    | Prim f => f current_input
    | Parallel ps => run_branches exec_part ps current_input py_none
    | TempInput tr mg p' =>
        abind (tr current_input) (fun t => abind (run_pipeline exec_part p' t) (fun r => mg current_input r))
    | InputCopy p' =>
        abind (lift (copy_any current_input)) (fun c => abind (run_pipeline exec_part p' c) (fun _ => aret current_input))
    | IfPipe cond p' =>
        abind (cond current_input) (fun b => if b then run_pipeline exec_part p' current_input else aret current_input)
    end.

  (** Pipeline.execute, legacy/pipelines/pipelines.py 21-27; Pipeline.__call__ 29-30. *)
  Definition exec_pipeline (parts : list part) (input : hv) : act hv := run_pipeline exec_part parts input.

  (** An argument of Pipeline(...): None, a part, or anything else (a Pipeline is not a part).  legacy/pipelines/pipelines.py 54-60. *)
  Inductive pipe_arg := ArgNone | ArgPart (p : part) | ArgOther.

  (** _create_pipelines_list, legacy/pipelines/pipelines.py 51-62. *)
  Fixpoint create_pipelines_list (args : list pipe_arg) (parts : list part) : result (list part) :=
    match args with
    | [] => Ok parts
    | ArgNone :: r => create_pipelines_list r parts
    | ArgOther :: _ => Err TypeError
    | ArgPart p :: r => create_pipelines_list r (parts ++ [p])
    end.
  (** Pipeline.__init__, legacy/pipelines/pipelines.py 9-10. *)
  Definition new_pipeline (args : list pipe_arg) : result (list part) := create_pipelines_list args [].
  (** Pipeline.append, legacy/pipelines/pipelines.py 12-13. *)
  Definition pipeline_append (parts : list part) (p : part) : list part := parts ++ [p].
End Pipe.
Arguments aret {X A}. Arguments abind {X A B}. Arguments lift {X A}. Arguments reset_colors {X}.
Arguments Prim {X}. Arguments Parallel {X}. Arguments TempInput {X}. Arguments InputCopy {X}. Arguments IfPipe {X}.
Arguments exec_part {X}. Arguments exec_pipeline {X}. Arguments run_parts {X}. Arguments run_pipeline {X}. Arguments run_branches {X}.
Arguments new_pipeline {X}. Arguments create_pipelines_list {X}. Arguments pipeline_append {X}.
Arguments w_heap {X}. Arguments w_colors {X}. Arguments w_rest {X}. Arguments mkWorld {X}.
Arguments ArgNone {X}. Arguments ArgPart {X}. Arguments ArgOther {X}.
