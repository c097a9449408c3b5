(** Vocabulary for object graphs: reachability, what a value looks like, and what a client can do. *)
From Verif Require Import Py LogModel HeapModel.

(** The locations a value or an object refers to. *)
Definition vref (v : hv) : list loc := match v with HRef l => [l] | HAtom _ => [] end.
Definition refs (o : obj) : list loc :=
  match o with
  | OList xs => flat_map vref xs
  | ODict d | OInst d | OCtx d => flat_map (fun kv => vref (snd kv)) d
  | OEvent p => vref p
  | OTrace e a => vref e ++ vref a
  | OLog t a e c p g => vref t ++ vref a ++ vref e ++ vref c ++ vref p ++ vref g
  end.

(** [x] can be reached from [l]. *)
Inductive reach (h : heap) : loc -> loc -> Prop :=
| reach_here l : reach h l l
| reach_step l o m x : cells h l = Some o -> In m (refs o) -> reach h m x -> reach h l x.

(** A heap without dangling references. *)
Definition closed (h : heap) : Prop :=
  (forall l, next h <= l -> cells h l = None) /\
  (forall l o m, cells h l = Some o -> In m (refs o) -> m < next h).

(** Everything a program can do with the objects it knows ([K]): follow references, create objects
    and overwrite known objects, always storing known objects only. *)
Inductive runs : (loc -> Prop) -> heap -> heap -> Prop :=
| runs_done (K : loc -> Prop) h : runs K h h
| runs_read (K : loc -> Prop) h h' l o x : K l -> cells h l = Some o -> In x (refs o) ->
    runs (fun y => y = x \/ K y) h h' -> runs K h h'
| runs_new (K : loc -> Prop) h h' o : (forall x, In x (refs o) -> K x) ->
    runs (fun y => y = next h \/ K y) (fst (alloc o h)) h' -> runs K h h'
| runs_write (K : loc -> Prop) h h' l o : K l -> (forall x, In x (refs o) -> K x) ->
    runs K (fst (poke l o h)) h' -> runs K h h'.

(** A client that starts from a single object. *)
Definition client (root : loc) (h h' : heap) : Prop := runs (fun x => x = root) h h'.

(** What a value looks like, identities forgotten. *)
Inductive tree :=
| TAtom (v : value)
| TList (ts : list tree)
| TDict (d : list (pystr * tree))
| TEvent (d : list (pystr * tree))
| TTrace (events : list tree) (attributes : list (pystr * tree))
| TLog (traces : list tree) (attributes extensions classifiers properties global_values : list (pystr * tree))
| TInst (attrs : list (pystr * tree)).

Inductive looks (h : heap) : hv -> tree -> Prop :=
| looks_atom v : looks h (HAtom v) (TAtom v)
| looks_list l xs ts : cells h l = Some (OList xs) -> looks_all h xs ts -> looks h (HRef l) (TList ts)
| looks_dict_ l d td : cells h l = Some (ODict d) -> looks_dict h d td -> looks h (HRef l) (TDict td)
| looks_inst l d td : cells h l = Some (OInst d) -> looks_dict h d td -> looks h (HRef l) (TInst td)
| looks_event l p d td : cells h l = Some (OEvent (HRef p)) -> cells h p = Some (ODict d) -> looks_dict h d td ->
    looks h (HRef l) (TEvent td)
| looks_trace l e a xs ts d td : cells h l = Some (OTrace (HRef e) (HRef a)) ->
    cells h e = Some (OList xs) -> looks_all h xs ts -> cells h a = Some (ODict d) -> looks_dict h d td ->
    looks h (HRef l) (TTrace ts td)
| looks_log l t a e c p g xs ts da ta de te dc tc dp tp dg tg :
    cells h l = Some (OLog (HRef t) (HRef a) (HRef e) (HRef c) (HRef p) (HRef g)) ->
    cells h t = Some (OList xs) -> looks_all h xs ts ->
    cells h a = Some (ODict da) -> looks_dict h da ta ->
    cells h e = Some (ODict de) -> looks_dict h de te ->
    cells h c = Some (ODict dc) -> looks_dict h dc tc ->
    cells h p = Some (ODict dp) -> looks_dict h dp tp ->
    cells h g = Some (ODict dg) -> looks_dict h dg tg ->
    looks h (HRef l) (TLog ts ta te tc tp tg)
with looks_all (h : heap) : list hv -> list tree -> Prop :=
| looks_all_nil : looks_all h [] []
| looks_all_cons v t vs ts : looks h v t -> looks_all h vs ts -> looks_all h (v :: vs) (t :: ts)
with looks_dict (h : heap) : dict pystr hv -> list (pystr * tree) -> Prop :=
| looks_dict_nil : looks_dict h [] []
| looks_dict_cons k v t d td : looks h v t -> looks_dict h d td -> looks_dict h ((k, v) :: d) ((k, t) :: td).

(** Trace attributes and global values forgotten, at every depth. *)
Fixpoint strip (t : tree) : tree :=
  let strip_d := map (fun kt => (fst kt, strip (snd kt))) in
  match t with
  | TAtom v => TAtom v
  | TList ts => TList (map strip ts)
  | TDict d => TDict (strip_d d)
  | TEvent d => TEvent (strip_d d)
  | TTrace es _ => TTrace (map strip es) []
  | TLog ts a e c p _ => TLog (map strip ts) (strip_d a) (strip_d e) (strip_d c) (strip_d p) []
  | TInst d => TInst (strip_d d)
  end.

(** The containers an object owns: itself and the list and dicts it is made of. *)
Definition containers (h : heap) (l : loc) : list loc :=
  l :: match cells h l with
       | Some ((OEvent _ | OTrace _ _ | OLog _ _ _ _ _ _) as o) => refs o
       | _ => []
       end.

(** Trace attributes or global values forgotten at the top only. *)
Definition strip_top (t : tree) : tree :=
  match t with
  | TTrace es _ => TTrace es []
  | TLog ts a e c p _ => TLog ts a e c p []
  | _ => t
  end.

(** The log a tree shows, when all attribute values are plain. *)
Fixpoint all_some {A B} (f : A -> option B) (l : list A) : option (list B) :=
  match l with
  | [] => Some []
  | x :: r => match f x, all_some f r with Some y, Some ys => Some (y :: ys) | _, _ => None end
  end.
Definition pair_some {B} (f : tree -> option B) (kt : pystr * tree) : option (pystr * B) :=
  match f (snd kt) with Some y => Some (fst kt, y) | None => None end.
Definition tree_value (t : tree) : option value := match t with TAtom v => Some v | _ => None end.
Definition tree_str (t : tree) : option pystr := match t with TAtom (VStr s) => Some s | _ => None end.
Definition tree_event (t : tree) : option event := match t with TEvent d => all_some (pair_some tree_value) d | _ => None end.
Definition tree_trace (t : tree) : option trace :=
  match t with
  | TTrace es a =>
      match all_some tree_event es, all_some (pair_some tree_value) a with
      | Some es', Some a' => Some (mkTrace es' a') | _, _ => None end
  | _ => None
  end.
Definition tree_dict {B} (f : tree -> option B) (t : tree) : option (list (pystr * B)) :=
  match t with TDict d => all_some (pair_some f) d | _ => None end.
Definition tree_strs (t : tree) : option (list pystr) := match t with TList ts => all_some tree_str ts | _ => None end.
Definition tree_log (t : tree) : option eventlog :=
  match t with
  | TLog ts a e c p g =>
      match all_some tree_trace ts, all_some (pair_some tree_str) a, all_some (pair_some (tree_dict tree_str)) e,
            all_some (pair_some tree_strs) c, all_some (pair_some tree_value) p,
            all_some (pair_some (tree_dict tree_value)) g with
      | Some ts', Some a', Some e', Some c', Some p', Some g' => Some (mkLog ts' a' e' c' p' g')
      | _, _, _, _, _, _ => None
      end
  | _ => None
  end.
