(** Vocabulary for the entropy filters. *)
From Coq Require Import Reals QArith Qround Permutation.
From Verif Require Import Py InfoSpec PosSpec.
Close Scope Q_scope. Open Scope nat_scope.

(** The name occurs in the log. *)
Definition occurs (n : pystr) (log : list (list pystr)) : Prop := exists t, In t log /\ In n t.

(** The distinct names of a log. *)
Definition distinct_names (log : list (list pystr)) : list pystr := nodup str_eq_dec (concat log).

(** The names taken out one after another; nothing removed leaves the log as it is. *)
Definition after (names : list pystr) (log : list (list pystr)) : list (list pystr) :=
  fold_left (fun l n => without l [n]) names log.

(** No trace is empty. *)
Definition no_empty_trace (log : list (list pystr)) : Prop := ~ In [] log.

(** [gtb] is the "greater" of a total preorder. *)
Definition order_laws {M} (gtb : M -> M -> bool) : Prop :=
  (forall a, gtb a a = false) /\
  (forall a b c, gtb a b = false -> gtb b c = false -> gtb a c = false) /\
  (forall a b, gtb a b = true -> gtb b a = false).

(** The metric never raises and rates only names of the log that are not protected. *)
Definition metric_ok {M} (metric : list (list pystr) -> result (dict pystr M)) (touchable : pystr -> Prop) : Prop :=
  forall l, exists d, metric l = Ok d /\ forall n, In n (dkeys d) -> occurs n l /\ touchable n.

(** Every removed name had, at the moment of its removal, the greatest metric value, above the threshold. *)
Definition greedy {M} (gtb : M -> M -> bool) (metric : list (list pystr) -> result (dict pystr M)) (threshold : M)
  (ns : list pystr) (log : list (list pystr)) : Prop :=
  forall i n, nth_error ns i = Some n ->
    after (firstn i ns) log <> [] /\
    exists d m, metric (after (firstn i ns) log) = Ok d /\ In (n, m) d /\ gtb m threshold = true /\
      forall n' m', In (n', m') d -> gtb m' m = false.

(** What a direct filter run gives: distinct unprotected names of the log are removed one after
    another, each time the one rated highest, at most [max] of them when [max] is positive; the run ends when the log is
    empty, the bound is reached or no rating is above the threshold.  It raises ValueError when
    a non-empty log has no rated name left. *)
Definition direct_outcome {M} (gtb : M -> M -> bool) (metric : list (list pystr) -> result (dict pystr M))
  (touchable : pystr -> Prop) (threshold : M) (max : Z) (log : list (list pystr)) (r : result (list (list pystr))) : Prop :=
  exists ns,
    NoDup ns /\ (forall n, In n ns -> occurs n log /\ touchable n) /\
    greedy gtb metric threshold ns log /\
    (0 < max -> Z.of_nat (length ns) <= max)%Z /\
    match r with
    | Ok log' => log' = after ns log /\
        (log' = [] \/ (0 < max /\ Z.of_nat (length ns) = max)%Z \/
         exists d, metric log' = Ok d /\ d <> [] /\ forall n m, In (n, m) d -> gtb m threshold = false)
    | Err e => e = ValueError /\ after ns log <> [] /\ metric (after ns log) = Ok []
    end.


(** Removal of a name or of nothing (Python None); both drop empty traces. *)
Definition drop (l : list (list pystr)) (o : option pystr) : list (list pystr) :=
  match o with Some n => without l [n] | None => without l [] end.
Definition after_opt (os : list (option pystr)) (log : list (list pystr)) : list (list pystr) := fold_left drop os log.

(** [o] is the candidate whose removal leaves the smallest total, provided some total is below [big]. *)
Definition best_removal {M} (ltb : M -> M -> bool) (big : M) (total : list (list pystr) -> result M)
  (cands : list pystr) (untouchable : pystr -> bool) (l : list (list pystr)) (o : option pystr) (m : M) : Prop :=
  match o with
  | Some k => In k cands /\ untouchable k = false /\ total (without l [k]) = Ok m /\ ltb m big = true /\
      forall c s, In c cands -> untouchable c = false -> total (without l [c]) = Ok s -> ltb s m = false
  | None => m = big /\
      forall c s, In c cands -> untouchable c = false -> total (without l [c]) = Ok s -> ltb s big = false
  end.

(** What an indirect filter run gives: at each step the log's total was above the threshold and the
    best candidate (or nothing) was removed; the run ends when the log is empty (if tested), the
    total is not above the threshold, or max(1, max) steps were made. *)
Definition indirect_outcome {M} (ltb leb : M -> M -> bool) (big : M) (stop_on_empty : bool)
  (total : list (list pystr) -> result M) (is_cands : list (list pystr) -> list pystr -> Prop)
  (untouchable : pystr -> bool) (threshold : M) (max : Z) (log log' : list (list pystr)) : Prop :=
  exists steps,
    log' = after_opt steps log /\
    (Z.of_nat (length steps) <= Z.max 1 max)%Z /\
    (forall i o, nth_error steps i = Some o ->
      let l := after_opt (firstn i steps) log in
      (stop_on_empty = true -> l <> []) /\
      (exists s, total l = Ok s /\ leb s threshold = false) /\
      (exists cands m, is_cands l cands /\ best_removal ltb big total cands untouchable l o m)) /\
    ((stop_on_empty = true /\ log' = []) \/ (exists s, total log' = Ok s /\ leb s threshold = true) \/
     Z.of_nat (length steps) = Z.max 1 max).

(** [cands] are the floor(q * #names) highest rated names. *)
Definition top_of (d : list (pystr * R)) (q : Q) (cands : list pystr) : Prop :=
  exists low top, Permutation d (low ++ top) /\ cands = map fst top /\
    Z.of_nat (length top) = Qfloor (inject_Z (Z.of_nat (length d)) * q) /\
    forall x y, In x low -> In y top -> (snd x <= snd y)%R.
