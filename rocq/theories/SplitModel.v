(** Model of legacy/analysis/event_log_split.py 7-69 and FilterTracesByVariants.
    A trace is an object [T] with a sequence of event names.
    Simplification: every event has a str concept:name (otherwise KeyError). *)
From Verif Require Import Py HashModel.

Section Split.
  Context {T : Type}.
  Variable names : T -> list pystr.

  (** event_log_split.py 11-15: bucket the traces by length. *)
  Definition traces_by_length (log : list T) : dict nat (list T) :=
    fold_left (fun d t => dpush Nat.eq_dec d (length (names t)) t) log [].

  (** event_log_split.py 36-42: dictionary from name hash at [index] to traces of the group;
      trace[index] raises IndexError when out of range. *)
  Fixpoint hashes2traces (index : nat) (group : list T) (d : dict N (list T))
    : result (dict N (list T)) :=
    match group with
    | [] => Ok d
    | t :: group' =>
        match nth_error (names t) index with
        | None => Err IndexError
        | Some n => hashes2traces index group' (dpush N.eq_dec d (string_poly_hash n) t)
        end
    end.

  (** event_log_split.py 28-45: one pass over the groups; returns new_groups and
      all_groups_has_one_trace. *)
  Fixpoint refine_groups (index : nat) (groups : list (list T)) : result (list (list T) * bool) :=
    match groups with
    | [] => Ok ([], true)
    | g :: gs =>
        if length g =? 1 then
          bind (refine_groups index gs) (fun '(ng, one) => Ok (g :: ng, one))
        else
          bind (hashes2traces index g []) (fun d =>
          bind (refine_groups index gs) (fun '(ng, _) => Ok (dvalues d ++ ng, false)))
    end.

  (** event_log_split.py 24-51, the while loop; [k] = len(traces[0]) - index iterations left. *)
  Fixpoint refine_loop (k index : nat) (groups : list (list T)) : result (list (list T)) :=
    match k with
    | 0 => Ok groups
    | S k' =>
        bind (refine_groups index groups) (fun '(new_groups, all_one) =>
        if all_one then Ok groups else refine_loop k' (S index) new_groups)
    end.

  (** event_log_split.py 17-54 for one bucket. *)
  Definition split_bucket (traces : list T) : result (list (list T)) :=
    match traces with
    | [] => Err IndexError                    (* traces[0]; no bucket is empty *)
    | [t] => Ok [[t]]
    | t :: _ => refine_loop (length (names t)) 0 [traces]
    end.

  (** event_log_split.py 7-56. *)
  Definition split_log_by_traces (log : list T) : result (list (list T)) :=
    bind (mapM split_bucket (dvalues (traces_by_length log))) (fun gss => Ok (concat gss)).

  (** legacy/pipelines/filtering/filter_parts.py 146-153: first trace of each group. *)
  Definition filter_traces_by_variants (log : list T) : result (list T) :=
    bind (split_log_by_traces log)
         (fun groups => mapM (fun g => match g with [] => Err IndexError | t :: _ => Ok t end) groups).
End Split.

(** event_log_split.py 59-69: all events of each trace followed by one fresh separator event;
    [uuids] are the successive results of str(uuid.uuid4()), [mk] builds the event holding it.
    copy.copy of an event is the same value. *)
Section Merge.
  Context {E : Type}.
  Variable mk : pystr -> E.
  Fixpoint merge_traces (log : list (list E)) (uuids : nat -> pystr) (i : nat) : list E :=
    match log with
    | [] => []
    | t :: log' => t ++ [mk (uuids i)] ++ merge_traces log' uuids (S i)
    end.
  (** legacy/analysis/event_log_split.py 59-69. *)
Definition merge_all_traces_in_one_log (log : list (list E)) (uuids : nat -> pystr) : list (list E) :=
    [merge_traces log uuids 0].
End Merge.
