(** Model of legacy/filtering/event_log_filters.py (whole file).  Logs are lists of name
    sequences (InfoModel); FilterProofs/C19_removal_bridge relates this to full event logs. *)
From Coq Require Import Reals QArith Qround.
From Verif Require Import Py InfoModel EntropyModel PosModel.

(** mutations/event_log_mutations.py 7-22 on name sequences: remove_event_from_log(log, name);
    the name may be None (event_log_filters.py 15, 173), which equals no event name. *)
Definition remove_name (log : names_log) (name : option pystr) : names_log :=
  filter (fun t => 0 <? length t)
    (map (filter (fun n => negb (match name with Some x => str_eqb n x | None => false end))) log).

(** legacy/filtering/event_log_filters.py 127-133. *)
Definition remove_untouchable {M} (d : dict pystr M) (untouchable : pystr -> bool) : dict pystr M :=
  filter (fun kv => negb (untouchable (fst kv))) d.

Section Direct.
  Context {M : Type}.
  Variable gtb : M -> M -> bool.                  (* Python > on metric values *)
  Variable metric : names_log -> result (dict pystr M).

  (** max(d, key=d.get) followed by d[...], legacy/filtering/event_log_filters.py 60-62: the first key with a value to which no
      later value is greater; ValueError on an empty dict. *)
  Definition max_item (d : dict pystr M) : result (pystr * M) :=
    match d with
    | [] => Err ValueError
    | kv :: r => Ok (fold_left (fun best kv => if gtb (snd kv) (snd best) then kv else best) r kv)
    end.

  (** legacy/filtering/event_log_filters.py 58-62. *)
  Definition next_direct (log : names_log) : result (pystr * M) := bind (metric log) max_item.

  (** legacy/filtering/event_log_filters.py 65-83; None = the fuel is used up (not a Python behaviour). *)
  Fixpoint direct_loop (fuel : nat) (threshold : M) (max_events_to_delete : Z)
    (log : names_log) (removed_events_count : Z) : option (result names_log) :=
    match fuel with
    | O => None
    | S fuel' =>
        if length log =? 0 then Some (Ok log)
        else match next_direct log with
             | Err e => Some (Err e)
             | Ok (event_name, m) =>
                 if gtb m threshold then
                   let log' := remove_name log (Some event_name) in
                   let count' := (removed_events_count + 1)%Z in
                   if (count' =? max_events_to_delete)%Z then Some (Ok log')
                   else direct_loop fuel' threshold max_events_to_delete log' count'
                 else Some (Ok log)
             end
    end.

  (** legacy/filtering/event_log_filters.py 86-88. *)
  Inductive metric_kind := BeforeOnly | AfterBeforeDelta.

  Variables (add sub : M -> M -> M) (zero : M).   (* + and - on metric values, 0 *)

  (** sum(metric_func(log).values()).  legacy/filtering/event_log_filters.py 99, 109. *)
  Definition metric_sum (log : names_log) : result M :=
    bind (metric log) (fun d => Ok (fold_left add (dvalues d) zero)).

  (** legacy/filtering/event_log_filters.py 91-114 (the ValueError branch of line 111-112 is unreachable for the two kinds). *)
  Fixpoint till_end_loop (fuel : nat) (kind : metric_kind) (log : names_log)
    (removals : list (pystr * M)) : option (result (list (pystr * M))) :=
    match fuel with
    | O => None
    | S fuel' =>
        if length log =? 0 then Some (Ok removals)
        else match bind (metric_sum log) (fun before => bind (next_direct log) (fun nm =>
                     let log' := remove_name log (Some (fst nm)) in
                     match kind with
                     | BeforeOnly => Ok (log', (fst nm, before))
                     | AfterBeforeDelta => bind (metric_sum log') (fun after =>
                                             Ok (log', (fst nm, sub before after)))
                     end)) with
             | Err e => Some (Err e)
             | Ok (log', r) => till_end_loop fuel' kind log' (removals ++ [r])
             end
    end.
End Direct.

(** The comparison of floats, on exact reals.  legacy/filtering/event_log_filters.py 76. *)
Definition Rgtb (x y : R) : bool := if Rlt_dec y x then true else false.

(** legacy/filtering/event_log_filters.py 136-145. *)
Definition filter_events_default_entropy_direct (fuel : nat) (log : names_log) (laplace : bool)
  (threshold : R) (max_events_to_remove : Z) (untouchable : pystr -> bool) : option (result names_log) :=
  direct_loop Rgtb (fun l => bind (calculate_laplace_or_default_entropies laplace l None)
                                  (fun d => Ok (remove_untouchable d untouchable)))
    fuel threshold max_events_to_remove log 0.

(** legacy/filtering/event_log_filters.py 152-160; the position entropy formula is abstract as in PosModel. *)
Definition filter_events_pos_entropy_direct {F} (gtb : F -> F -> bool) (finish : list nat -> nat -> F)
  (fuel : nat) (log : names_log) (threshold : F) (max_events_to_remove : Z)
  (untouchable : pystr -> bool) : option (result names_log) :=
  direct_loop gtb (fun l => bind (position_entropies_fast finish l None None)
                                 (fun d => Ok (remove_untouchable d untouchable)))
    fuel threshold max_events_to_remove log 0.

(** legacy/filtering/event_log_filters.py 240-247. *)
Definition filter_events_pos_entropy_direct_till_end {F} (gtb : F -> F -> bool)
  (finish : list nat -> nat -> F) (add sub : F -> F -> F) (zero : F) (fuel : nat) (log : names_log)
  (kind : metric_kind) (untouchable : pystr -> bool) : option (result (list (pystr * F))) :=
  till_end_loop gtb (fun l => bind (position_entropies_fast finish l None None)
                                   (fun d => Ok (remove_untouchable d untouchable)))
    add sub zero fuel kind log [].

Section Indirect.
  Context {M : Type}.
  Variables (ltb leb : M -> M -> bool).          (* Python < and <= *)
  Variable big : M.                              (* 1e10 *)

  (** legacy/filtering/event_log_filters.py 15-16, 22-31 and 172-185: scan the candidates, keep the first strictly smallest score. *)
  Definition scan_candidates (untouchable : pystr -> bool) (score : pystr -> result M)
    (candidates : list pystr) : result (option pystr * M) :=
    loopM (fun best c =>
        if untouchable c then Ok best
        else bind (score c) (fun s => Ok (if ltb s (snd best) then (Some c, s) else best)))
      candidates (None, big).

  (** legacy/filtering/event_log_filters.py 40-55 and 192-209; [stop_on_empty] is the test of lines 42-43 (absent in 193-209);
      [total_score] is compared with the threshold, [next] picks the next removal. *)
  Fixpoint indirect_loop (stop_on_empty : bool) (total_score : names_log -> result M)
    (next : names_log -> result (option pystr * M)) (fuel : nat) (threshold : M)
    (max_events_to_remove : Z) (log : names_log) (removed : Z) : option (result names_log) :=
    match fuel with
    | O => None
    | S fuel' =>
        if stop_on_empty && (length log =? 0) then Some (Ok log)
        else match total_score log with
             | Err e => Some (Err e)
             | Ok s =>
                 if leb s threshold then Some (Ok log)
                 else match next log with
                      | Err e => Some (Err e)
                      | Ok (name, _) =>
                          let log' := remove_name log name in
                          let removed' := (removed + 1)%Z in
                          if (max_events_to_remove <=? removed')%Z then Some (Ok log')
                          else indirect_loop stop_on_empty total_score next fuel' threshold
                                 max_events_to_remove log' removed'
                      end
             end
    end.
End Indirect.

(** sorted(entropies.items(), key=lambda x: x[1]), legacy/filtering/event_log_filters.py 19: stable insertion sort. *)
Fixpoint insert_item (kv : pystr * R) (l : list (pystr * R)) : list (pystr * R) :=
  match l with
  | [] => [kv]
  | y :: r => if Rle_dec (snd kv) (snd y) then kv :: y :: r else y :: insert_item kv r
  end.
(** See insert_item.  legacy/filtering/event_log_filters.py 19. *)
Definition sort_items (d : list (pystr * R)) : list (pystr * R) := fold_right insert_item [] d.

(** l[i:] for an int i (negative: from the end).  legacy/filtering/event_log_filters.py 20. *)
Definition slice_from {A} (l : list A) (i : Z) : list A :=
  let n := Z.of_nat (length l) in
  skipn (Z.to_nat (if (i <? 0)%Z then Z.max 0 (n + i) else i)) l.

(** int(q): truncation toward zero.  legacy/filtering/event_log_filters.py 20. *)
Definition q_trunc (q : Q) : Z := Z.quot (Qnum q) (Zpos (Qden q)).

(** legacy/filtering/event_log_filters.py 20: top = sorted[len - int(len * top_percent):]; top_percent is an exact rational
    (the rounding of the float product is not modelled). *)
Definition top_entropies (sorted : list (pystr * R)) (top_percent : Q) : list (pystr * R) :=
  let n := Z.of_nat (length sorted) in
  slice_from sorted (n - q_trunc (inject_Z n * top_percent)).

(** Comparisons of floats, on exact reals.  legacy/filtering/event_log_filters.py 27, 181. *)
Definition Rltb (x y : R) : bool := if Rlt_dec x y then true else false.
(** legacy/filtering/event_log_filters.py 45, 198. *)
Definition Rleb (x y : R) : bool := if Rle_dec x y then true else false.

(** 1e10, legacy/filtering/event_log_filters.py 16 and 172. *)
Definition R_1e10 : R := IZR 10000000000.

(** legacy/filtering/event_log_filters.py 11-31. *)
Definition next_removal_default_entropy_indirect (laplace : bool) (top_percent : Q)
  (untouchable : pystr -> bool) (log : names_log) : result (option pystr * R) :=
  bind (calculate_laplace_or_default_entropies laplace log None) (fun entropies =>
    scan_candidates Rltb R_1e10 untouchable
      (fun key => calculate_default_entropy_average laplace log (Some [key]))
      (map fst (top_entropies (sort_items entropies) top_percent))).

(** legacy/filtering/event_log_filters.py 34-55. *)
Definition filter_events_default_entropy_indirect (fuel : nat) (log : names_log) (laplace : bool)
  (threshold : R) (top_percent : Q) (max_events_to_remove : Z) (untouchable : pystr -> bool)
  : option (result names_log) :=
  indirect_loop Rleb true (fun l => calculate_default_entropy_average laplace l None)
    (next_removal_default_entropy_indirect laplace top_percent untouchable)
    fuel threshold max_events_to_remove log 0.

Section PosIndirect.
  Context {F : Type}.
  Variables (finish : list nat -> nat -> F) (ltb leb : F -> F -> bool) (add : F -> F -> F) (zero big : F).

  (** event_log_analysis_entropy.py 280-284 *)
  Definition position_entropies_fast_sum (log : names_log) (ig : option ignored_info)
    (positions : option (list trace_positions)) : result F :=
    bind (position_entropies_fast finish log ig positions) (fun d => Ok (fold_left add (dvalues d) zero)).

  (** legacy/filtering/event_log_filters.py 163-185, with the caches computed from the same log (lines 168-170, 194-196). *)
  Definition next_event_remove_pos_entropy_indirect (untouchable : pystr -> bool) (log : names_log)
    : result (option pystr * F) :=
    let trace_counts := calculate_events_in_each_trace log in
    let log_info := create_log_information log None true in
    let positions := create_events_positions log in
    scan_candidates ltb big untouchable
      (fun n => position_entropies_fast_sum log (Some (mkIgn [n] trace_counts)) (Some positions))
      (dkeys (li_events_count log_info)).

  (** legacy/filtering/event_log_filters.py 188-209. *)
  Definition filter_events_pos_entropy_indirect (fuel : nat) (log : names_log) (threshold : F)
    (max_events_to_remove : Z) (untouchable : pystr -> bool) : option (result names_log) :=
    indirect_loop leb false
      (fun l => position_entropies_fast_sum l None (Some (create_events_positions l)))
      (next_event_remove_pos_entropy_indirect untouchable)
      fuel threshold max_events_to_remove log 0.

  (** legacy/filtering/event_log_filters.py 212-237. *)
  Fixpoint pos_indirect_till_end (sub : F -> F -> F) (fuel : nat) (kind : metric_kind)
    (untouchable : pystr -> bool) (log : names_log) (removals : list (option pystr * F))
    : option (result (list (option pystr * F))) :=
    match fuel with
    | O => None
    | S fuel' =>
        if length log =? 0 then Some (Ok removals)
        else match bind (position_entropies_fast_sum log None (Some (create_events_positions log))) (fun before =>
                   bind (next_event_remove_pos_entropy_indirect untouchable log) (fun nm =>
                     Ok (remove_name log (fst nm),
                         (fst nm, match kind with BeforeOnly => before | AfterBeforeDelta => sub before (snd nm) end)))) with
             | Err e => Some (Err e)
             | Ok (log', r) => pos_indirect_till_end sub fuel' kind untouchable log' (removals ++ [r])
             end
    end.
End PosIndirect.
