(** Model of legacy/analysis/event_log_analysis_entropy.py 15-113 (default and Laplace
    entropies).  Floats are modelled by the exact reals: rounding is not modelled. *)
From Coq Require Import Reals.
From Verif Require Import Py InfoModel.
Open Scope R_scope.

(** math.log2.  legacy/analysis/event_log_analysis_entropy.py 90. *)
Definition log2 (x : R) : R := ln x / ln 2.

(** pairs.get((a, b), 0).  legacy/analysis/event_log_analysis_entropy.py 59, 62, 76, 80. *)
Definition pair_count (info : log_information) (a b : pystr) : nat :=
  match dget pair_eq_dec (d_pairs (li_dfg info)) (a, b) with Some c => c | None => 0%nat end.

(** x / y on Python ints.  legacy/analysis/event_log_analysis_entropy.py 59, 62, 70. *)
Definition py_div (x y : nat) : result R :=
  if (y =? 0)%nat then Err ZeroDivisionError else Ok (INR x / INR y).

(** legacy/analysis/event_log_analysis_entropy.py 58-59. *)
Definition default_dfr (first second : pystr) (info : log_information) : result R :=
  bind (dgetitem str_eq_dec (li_events_count info) first) (fun c => py_div (pair_count info first second) c).
(** legacy/analysis/event_log_analysis_entropy.py 61-62. *)
Definition default_dpr (first second : pystr) (info : log_information) : result R :=
  bind (dgetitem str_eq_dec (li_events_count info) first) (fun c => py_div (pair_count info second first) c).

(** legacy/analysis/event_log_analysis_entropy.py 69-73; the denominator y is positive for event_count > 0. *)
Definition dfr_or_dpr (pair_count events_count event_count : nat) : result R :=
  bind (py_div 1 event_count) (fun alpha =>
    let x := alpha + INR pair_count in
    let y := alpha * INR (events_count + 1) + INR event_count in
    Ok (x / y)).

(** legacy/analysis/event_log_analysis_entropy.py 75-77. *)
Definition laplace_dfr (first second : pystr) (info : log_information) : result R :=
  bind (dgetitem str_eq_dec (li_events_count info) first) (fun c =>
    dfr_or_dpr (pair_count info first second) (length (li_events_count info)) c).
(** legacy/analysis/event_log_analysis_entropy.py 79-81. *)
Definition laplace_dpr (first second : pystr) (info : log_information) : result R :=
  bind (dgetitem str_eq_dec (li_events_count info) first) (fun c =>
    dfr_or_dpr (pair_count info second first) (length (li_events_count info)) c).

(** legacy/analysis/event_log_analysis_entropy.py 86-92 *)
Definition calculate_entropy (vector : list R) : R :=
  fold_left (fun e item => if Req_EM_T item 0 then e else e - item * log2 item) vector 0.

(** legacy/analysis/event_log_analysis_entropy.py 95-113 *)
Definition calculate_entropies (dfr dpr : pystr -> pystr -> log_information -> result R)
  (log : names_log) (ign : option (list pystr)) : result (dict pystr R) :=
  let info := create_log_information log ign true in
  let names := dkeys (li_events_count info) in
  loopM (fun entropy item =>
    let event_name := fst item in
    bind (mapM (fun x => dfr event_name x info) (names ++ [fake_end_name])) (fun dfr_vector =>
    bind (mapM (fun x => dpr event_name x info) (names ++ [fake_start_name])) (fun dpr_vector =>
    Ok (dset str_eq_dec entropy event_name (calculate_entropy dfr_vector + calculate_entropy dpr_vector)))))
    (li_events_count info) [].

(** legacy/analysis/event_log_analysis_entropy.py 56-64. *)
Definition calculate_default_entropies := calculate_entropies default_dfr default_dpr.
(** legacy/analysis/event_log_analysis_entropy.py 67-83. *)
Definition calculate_laplace_entropies := calculate_entropies laplace_dfr laplace_dpr.

(** legacy/analysis/event_log_analysis_entropy.py 15-21 *)
Definition calculate_laplace_or_default_entropies (laplace : bool) (log : names_log)
  (ign : option (list pystr)) : result (dict pystr R) :=
  if laplace then calculate_laplace_entropies log ign else calculate_default_entropies log ign.

(** sum(d.values()).  legacy/analysis/event_log_analysis_entropy.py 25, 33. *)
Definition sum_values (d : dict pystr R) : R := fold_left Rplus (dvalues d) 0.

(** legacy/analysis/event_log_analysis_entropy.py 24-25, 36-40 *)
Definition calculate_default_entropy_sum (laplace : bool) (log : names_log) (ign : option (list pystr)) : result R :=
  bind (calculate_laplace_or_default_entropies laplace log ign) (fun d => Ok (sum_values d)).

(** legacy/analysis/event_log_analysis_entropy.py 28-33, 43-47 *)
Definition calculate_default_entropy_average (laplace : bool) (log : names_log) (ign : option (list pystr)) : result R :=
  bind (calculate_laplace_or_default_entropies laplace log ign) (fun d =>
    Ok (if (length d =? 0)%nat then 0 else sum_values d / INR (length d))).
