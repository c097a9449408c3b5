(** Objects with identity: legacy/log/event_log.py 6-141 (copy and deepcopy), legacy/util.py 132-137,
    and the parts of Python's copy module they rely on.  A heap maps locations to objects. *)
From Verif Require Import Py LogModel.

(** Identities of objects; those of legacy/log/event_log.py 6-141. *)
Definition loc := nat.

(** A Python value held in a variable, a list or a dict: an immutable value, or a reference.  legacy/log/event_log.py 6-141. *)
Inductive hv := HAtom (v : value) | HRef (l : loc).

(** Mutable objects.  [OInst] is any other instance with attributes and no __deepcopy__ of its own
    (e.g. ActivityNode, patterns_models.py 24-72); [OCtx] is PipelinePartResult,
    pipelines/contexts/part_results.py 34-36, whose dict [values] is not shared with anything. *)
Inductive obj :=
| OList (xs : list hv)
| ODict (d : dict pystr hv)
| OEvent (payload : hv)
| OTrace (raw_events attributes : hv)
| OLog (traces attributes extensions classifiers properties global_values : hv)
| OInst (attrs : dict pystr hv)
| OCtx (values : dict pystr hv).

(** The heap: contents of the locations and the next free location.  legacy/log/event_log.py 6-141. *)
Record heap := mkHeap { cells : loc -> option obj; next : loc }.

(** Computations over the heap; an exception does not undo the changes made before it.  legacy/log/event_log.py 37-41. *)
Definition H (A : Type) := heap -> heap * result A.
(** legacy/log/event_log.py 37-41. *)
Definition ret {A} (a : A) : H A := fun h => (h, Ok a).
(** legacy/log/event_log.py 37-41. *)
Definition fail {A} (e : exc) : H A := fun h => (h, Err e).
(** legacy/log/event_log.py 37-41. *)
Definition hbind {A B} (m : H A) (f : A -> H B) : H B :=
  fun h => let '(h', r) := m h in match r with Ok a => f a h' | Err e => (h', Err e) end.

(** The contents of a location.  legacy/log/event_log.py 37-41. *)
Definition peek (l : loc) : H obj :=
  fun h => (h, match cells h l with Some o => Ok o | None => Err AttributeError end).
(** The object a value refers to; an immutable value has no such attributes.  legacy/log/event_log.py 37-41. *)
Definition deref (v : hv) : H obj := match v with HRef l => peek l | HAtom _ => fail AttributeError end.
(** Replacing the contents of an object.  legacy/log/event_log.py 16-17. *)
Definition upd (f : loc -> option obj) (l : loc) (o : option obj) : loc -> option obj :=
  fun x => if Nat.eq_dec x l then o else f x.
(** legacy/log/event_log.py 16-17. *)
Definition poke (l : loc) (o : obj) : H unit := fun h => (mkHeap (upd (cells h) l (Some o)) (next h), Ok tt).
(** A new location whose contents are filled in later: nobody can look at the object before.  legacy/log/event_log.py 38. *)
Definition reserve : H loc := fun h => (mkHeap (cells h) (S (next h)), Ok (next h)).
(** A new object.  legacy/log/event_log.py 38. *)
Definition alloc (o : obj) : H loc := hbind reserve (fun l => hbind (poke l o) (fun _ => ret l)).

(** A loop collecting results.  legacy/log/event_log.py 136-141. *)
Fixpoint hmap {A B} (f : A -> H B) (l : list A) : H (list B) :=
  match l with
  | [] => ret []
  | x :: xs => hbind (f x) (fun y => hbind (hmap f xs) (fun ys => ret (y :: ys)))
  end.

(** The dict or list behind an attribute.  legacy/log/event_log.py 82. *)
Definition as_list (v : hv) : H (list hv) := hbind (deref v) (fun o => match o with OList xs => ret xs | _ => fail TypeError end).
(** legacy/log/event_log.py 38. *)
Definition as_dict (v : hv) : H (dict pystr hv) := hbind (deref v) (fun o => match o with ODict d => ret d | _ => fail AttributeError end).

(** copy.deepcopy's memo: already copied objects.  legacy/log/event_log.py 40, 84, 136. *)
Definition memo := list (loc * loc).
(** legacy/log/event_log.py 40, 84, 136. *)
Definition memo_get (m : memo) (l : loc) : option loc := dget Nat.eq_dec m l.

Section Deep.
  Variable dc : memo -> hv -> H (memo * hv).

  (** The loops of copy._deepcopy_list and copy._deepcopy_dict: one memo for all elements.  Used by legacy/log/event_log.py 85. *)
  Fixpoint deep_list (m : memo) (xs : list hv) : H (memo * list hv) :=
    match xs with
    | [] => ret (m, [])
    | x :: r => hbind (dc m x) (fun my => hbind (deep_list (fst my) r) (fun mys => ret (fst mys, snd my :: snd mys)))
    end.
  (** Used by legacy/util.py 135. *)
Fixpoint deep_dict (m : memo) (d : dict pystr hv) : H (memo * dict pystr hv) :=
    match d with
    | [] => ret (m, [])
    | (k, x) :: r => hbind (dc m x) (fun my => hbind (deep_dict (fst my) r) (fun mys => ret (fst mys, (k, snd my) :: snd mys)))
    end.

  (** copy.deepcopy(x): a new memo.  legacy/util.py 135; legacy/log/event_log.py 85, 137. *)
  Definition fresh (x : hv) : H hv := hbind (dc [] x) (fun my => ret (snd my)).

  (** util.py 132-137 deep_copy_dict: every value with a new memo (the keys are str). *)
  Definition deep_copy_dict (v : hv) : H hv :=
    hbind (as_dict v) (fun d =>
    hbind (hmap (fun kv => hbind (fresh (snd kv)) (fun y => ret (fst kv, y))) d) (fun d' =>
    hbind (alloc (ODict d')) (fun l => ret (HRef l)))).

  (** MyEvent.__deepcopy__, event_log.py 40-41. *)
  Definition deepcopy_event (payload : hv) : H loc :=
    hbind (deep_copy_dict payload) (fun p => alloc (OEvent p)).

  (** MyTrace.__deepcopy__, event_log.py 84-85: the attributes are not passed on. *)
  Definition deepcopy_trace (raw_events : hv) : H loc :=
    hbind (fresh raw_events) (fun evs =>
    hbind (alloc (ODict [])) (fun attrs =>
    alloc (OTrace evs (HRef attrs)))).

  (** MyEventLog.__deepcopy__, event_log.py 136-141: global_values is not passed on. *)
  Definition deepcopy_log (traces attributes extensions classifiers properties : hv) : H loc :=
    hbind (as_list traces) (fun ts =>
    hbind (hmap fresh ts) (fun ts' =>
    hbind (alloc (OList ts')) (fun lt =>
    hbind (deep_copy_dict attributes) (fun a =>
    hbind (deep_copy_dict extensions) (fun e =>
    hbind (deep_copy_dict classifiers) (fun c =>
    hbind (deep_copy_dict properties) (fun p =>
    hbind (alloc (ODict [])) (fun g =>
    alloc (OLog (HRef lt) a e c p (HRef g)))))))))).
End Deep.

(** copy.deepcopy(v, memo).  Lists, dicts and plain instances are entered in the memo before their
    contents are copied, objects with a __deepcopy__ afterwards.  Out of fuel: RecursionError or an
    infinite structure.  legacy/log/event_log.py 40-41, 84-85, 136-141; legacy/pipelines/contexts/part_results.py 146-147. *)
Fixpoint deepcopy (fuel : nat) (m : memo) (v : hv) : H (memo * hv) :=
  match fuel with
  | O => fail Diverges
  | S fuel' =>
      match v with
      | HAtom a => ret (m, HAtom a)
      | HRef l =>
          match memo_get m l with
          | Some l' => ret (m, HRef l')
          | None =>
              hbind (peek l) (fun o =>
              let after (c : H loc) := hbind c (fun l' => ret ((l, l') :: m, HRef l')) in
              match o with
              | OList xs =>
                  hbind reserve (fun l' =>
                  hbind (deep_list (deepcopy fuel') ((l, l') :: m) xs) (fun mys =>
                  hbind (poke l' (OList (snd mys))) (fun _ => ret (fst mys, HRef l'))))
              | ODict d =>
                  hbind reserve (fun l' =>
                  hbind (deep_dict (deepcopy fuel') ((l, l') :: m) d) (fun mys =>
                  hbind (poke l' (ODict (snd mys))) (fun _ => ret (fst mys, HRef l'))))
              | OInst d =>
                  hbind reserve (fun l' =>
                  hbind (deep_dict (deepcopy fuel') ((l, l') :: m) d) (fun mys =>
                  hbind (poke l' (OInst (snd mys))) (fun _ => ret (fst mys, HRef l'))))
              | OEvent p => after (deepcopy_event (deepcopy fuel') p)
              | OTrace evs _ => after (deepcopy_trace (deepcopy fuel') evs)
              | OLog ts a e c p _ => after (deepcopy_log (deepcopy fuel') ts a e c p)
              | OCtx _ => fail NotImplementedErr          (* part_results.py 146-147 *)
              end)
          end
      end
  end.

(** dict(d): a new dict with the same values.  legacy/log/event_log.py 38, 129-134. *)
Definition shallow_dict (v : hv) : H hv := hbind (as_dict v) (fun d => hbind (alloc (ODict d)) (fun l => ret (HRef l))).

(** copy.copy: MyEvent.__copy__ 37-38, MyTrace.__copy__ 81-82, MyEventLog.__copy__ 129-134,
    PipelinePartResult.__copy__ part_results.py 141-144; lists and dicts copy their top level. *)
Definition shallow_copy (v : hv) : H hv :=
  hbind (deref v) (fun o =>
  match o with
  | OList xs => hbind (alloc (OList xs)) (fun l => ret (HRef l))
  | ODict d => hbind (alloc (ODict d)) (fun l => ret (HRef l))
  | OInst d => hbind (alloc (OInst d)) (fun l => ret (HRef l))
  | OEvent p => hbind (shallow_dict p) (fun p' => hbind (alloc (OEvent p')) (fun l => ret (HRef l)))
  | OTrace evs _ =>
      hbind (as_list evs) (fun xs =>
      hbind (alloc (OList xs)) (fun evs' =>
      hbind (alloc (ODict [])) (fun attrs =>
      hbind (alloc (OTrace (HRef evs') (HRef attrs))) (fun l => ret (HRef l)))))
  | OLog ts a e c p _ =>
      hbind (as_list ts) (fun xs =>
      hbind (alloc (OList xs)) (fun ts' =>
      hbind (shallow_dict a) (fun a' => hbind (shallow_dict e) (fun e' =>
      hbind (shallow_dict c) (fun c' => hbind (shallow_dict p) (fun p' =>
      hbind (alloc (ODict [])) (fun g =>
      hbind (alloc (OLog (HRef ts') a' e' c' p' (HRef g))) (fun l => ret (HRef l)))))))))
  | OCtx d => hbind (alloc (OCtx d)) (fun l => ret (HRef l))
  end).
