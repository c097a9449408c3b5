(** Further vocabulary: sorting by start, written XES documents, indices from the end. *)
From Coq Require Import Permutation Sorted.
From Verif Require Import Py LogModel ActModel ActLogModel XesModel.

(** [m] is [l] from the latest start to the earliest; equal starts keep their order. *)
Definition latest_first (l m : list inst) : Prop :=
  Permutation l m /\ StronglySorted (fun x y => in_start y <= in_start x) m /\
  forall s, filter (fun x => in_start x =? s) m = filter (fun x => in_start x =? s) l.

(** * The XES document of a log, with the names of the elements and attributes spelled out *)
Definition value_element (k : pystr) (v : value) : list xml :=
  let e tag text := [Elem (str tag) [(str "key", k); (str "value", text)] []] in
  match v with
  | VStr s => e "string"%string s
  | VDate s => e "date"%string s
  | VInt z => e "int"%string (show_int z)
  | VFloat s => e "float"%string s
  | VBool true => e "boolean"%string (str "True")
  | VBool false => e "boolean"%string (str "False")
  | VEvents _ | VActs _ | VOpaque _ => []
  end.
(** The declared default of a key is this value. *)
Definition declared (veq : value -> value -> bool) (globals : dict pystr (dict pystr value)) (scope k : pystr) (v : value) : bool :=
  match dget str_eq_dec globals scope with
  | None => false
  | Some g => match dget str_eq_dec g k with None => false | Some w => veq w v end
  end.
Definition payload (veq : value -> value -> bool) (globals : dict pystr (dict pystr value)) (scope : pystr) (d : dict pystr value) : list xml :=
  flat_map (fun kv => if declared veq globals scope (fst kv) (snd kv) then [] else value_element (fst kv) (snd kv)) d.
Definition document (veq : value -> value -> bool) (log : eventlog) : xml :=
  let g := l_globals log in
  Elem (str "log") (l_attrs log)
    (map (fun x => Elem (str "extension") ((str "name", fst x) :: snd x) []) (l_extensions log) ++
     map (fun x => Elem (str "classifier") [(str "name", fst x); (str "keys", join_space (snd x))] []) (l_classifiers log) ++
     map (fun x => Elem (str "global") [(str "scope", fst x)] (flat_map (fun kv => value_element (fst kv) (snd kv)) (snd x))) g ++
     map (fun t => Elem (str "trace") []
            (payload veq g (str "trace") (t_attrs t) ++ map (fun e => Elem (str "event") [] (payload veq g (str "event") e)) (t_events t))) (l_traces log)).

(** The event has a text as its name. *)
Definition named (e : event) : Prop := exists s, eget e concept_name = Some (VStr s).
(** How asking for the name of another event fails. *)
Definition name_error (e : event) : exc := match eget e concept_name with None => KeyError | Some _ => TypeError end.
