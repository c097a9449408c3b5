(** C59: distances between rows. *)
From Coq Require Import Reals Lra QArith SpecFloat Permutation.
From Verif Require Import Py XesModel DrawModel DecodeModel DatasetModel DatasetSpec DatasetProofs DistModel DistSpec DistProofs CosineProofs.
Close Scope Q_scope. Close Scope R_scope.

(** The distance called Levenshtein is the smaller one of the Levenshtein distances from the first row and
    from the first row without its first symbol. *)
Theorem C59_rows : forall a b : list N, length a = length b ->
  exists d n m, lev_distance a b = Ok d /\ levenshtein a b n /\ levenshtein (tl a) b m /\ d = Nat.min n m.
Proof. exact distance_proof. Qed.
Print Assumptions C59_rows.
Theorem C59_close : forall (a b : list N) d n, length a = length b -> lev_distance a b = Ok d -> levenshtein a b n -> n - 1 <= d <= n.
Proof. exact close_proof. Qed.
Print Assumptions C59_close.
(** It is zero exactly for equal rows. *)
Theorem C59_zero : forall (a b : list N) d, length a = length b -> lev_distance a b = Ok d -> (d = 0 <-> a = b).
Proof. exact zero_proof. Qed.
Print Assumptions C59_zero.

(** Between two traces of a dataset it is at least the number of edits that turn one into the other less
    one, and at most twice that number. *)
Theorem C59_traces : forall find_match log src d i j t u r s n,
  traces_dataset_levenshtein find_match log src = Ok d ->
  nth_error log i = Some t -> nth_error log j = Some u ->
  nth_error (da_values d) i = Some r -> nth_error (da_values d) j = Some s ->
  levenshtein (map (class_of find_match) (trace_representation src t)) (map (class_of find_match) (trace_representation src u)) n ->
  exists x, lev_distance r s = Ok x /\ n - 1 <= x <= 2 * n.
Proof. exact traces_proof. Qed.
Print Assumptions C59_traces.

Definition ev_ (n : string) : bevent := BEvent (str n) None.
Definition log_ : list (list bevent) := [[ev_ "x"]; [ev_ "y"; ev_ "x"]; [ev_ "x"; ev_ "y"; ev_ "z"; ev_ "x"]; [ev_ "y"; ev_ "z"; ev_ "x"; ev_ "y"]].
Example C59_case : exists d, traces_dataset_levenshtein None log_ SrcEvents = Ok d /\
  da_values d = [[1; 0; 0; 0; 0]; [2; 1; 0; 0; 0]; [1; 2; 3; 1; 0]; [2; 3; 1; 2; 0]]%N /\
  mapM (fun r => mapM (lev_distance r) (da_values d)) (da_values d) = Ok [[0; 2; 3; 4]; [1; 0; 3; 3]; [3; 3; 0; 1]; [4; 3; 2; 0]].
Proof. eexists. split; [vm_compute; reflexivity|]. split; vm_compute; reflexivity. Qed.

(** It is not the Levenshtein distance, neither of the traces nor of the rows, it is not symmetric, *)
Theorem C59_not_levenshtein_refuted : exists log d r s x y,
  traces_dataset_levenshtein None log SrcEvents = Ok d /\
  nth_error (da_values d) 0 = Some r /\ nth_error (da_values d) 1 = Some s /\
  lev_distance r s = Ok x /\ lev_distance s r = Ok y /\ x <> y /\
  ~ levenshtein (map (class_of None) (nth 0 log [])) (map (class_of None) (nth 1 log [])) x /\ ~ levenshtein s r y.
Proof.
  exists [[ev_ "x"]; [ev_ "y"; ev_ "x"]]. do 5 eexists. split; [vm_compute; reflexivity|]. split; [reflexivity|]. split; [reflexivity|].
  split; [vm_compute; reflexivity|]. split; [vm_compute; reflexivity|]. split; [lia|]. split.
  - intros [_ H]. assert (X : script (map (class_of None) [ev_ "x"]) (map (class_of None) [ev_ "y"; ev_ "x"]) 1) by (repeat constructor). apply H in X. lia.
  - intros H. apply L_levenshtein in H. vm_compute in H. discriminate.
Qed.
Print Assumptions C59_not_levenshtein_refuted.
(** and it does not fulfil the triangle inequality. *)
Theorem C59_triangle_refuted : exists log d r s t x y z,
  traces_dataset_levenshtein None log SrcEvents = Ok d /\ da_values d = [r; s; t] /\
  lev_distance r s = Ok x /\ lev_distance s t = Ok y /\ lev_distance r t = Ok z /\ x + y < z.
Proof.
  exists [[ev_ "x"; ev_ "x"; ev_ "y"]; [ev_ "x"; ev_ "y"]; [ev_ "y"]]. do 7 eexists.
  split; [vm_compute; reflexivity|]. split; [reflexivity|]. split; [vm_compute; reflexivity|]. split; [vm_compute; reflexivity|]. split; [vm_compute; reflexivity|]. lia.
Qed.
Print Assumptions C59_triangle_refuted.

(** The cosine distance of rows without negative numbers, neither of them zero, in exact arithmetic: between 0
    and 1, 0 exactly for rows in proportion, 1 exactly for rows that share no column, and symmetric. *)
Theorem C59_cosine : forall a b : list R,
  length a = length b -> (forall x, In x a -> (0 <= x)%R) -> (forall y, In y b -> (0 <= y)%R) ->
  (exists x, In x a /\ x <> 0%R) -> (exists y, In y b /\ y <> 0%R) ->
  (0 <= cosine_R a b <= 1)%R /\
  (cosine_R a b = 0%R <-> exists t, (0 < t)%R /\ b = map (Rmult t) a) /\
  (cosine_R a b = 1%R <-> Forall2 (fun x y => x = 0%R \/ y = 0%R) a b) /\
  cosine_R a b = cosine_R b a.
Proof.
  intros a b Hl Ha Hb Na Nb. split; [apply cosine_range; assumption|]. split; [apply cosine_zero; assumption|]. split; [apply cosine_one; assumption|apply cosine_sym; assumption].
Qed.
Print Assumptions C59_cosine.
Example C59_cosine_case : cosine_R [1; 0; 1]%R [2; 0; 2]%R = 0%R /\ cosine_R [1; 0; 1]%R [0; 3; 0]%R = 1%R.
Proof.
  split.
  - apply (C59_cosine [1; 0; 1]%R [2; 0; 2]%R); try reflexivity.
    + cbn. intros x [<-|[<-|[<-|[]]]]; lra.
    + cbn. intros x [<-|[<-|[<-|[]]]]; lra.
    + exists 1%R. split; [left; reflexivity|lra].
    + exists 2%R. split; [left; reflexivity|lra].
    + exists 2%R. split; [lra|]. cbn. repeat f_equal; ring.
  - apply (C59_cosine [1; 0; 1]%R [0; 3; 0]%R); try reflexivity.
    + cbn. intros x [<-|[<-|[<-|[]]]]; lra.
    + cbn. intros x [<-|[<-|[<-|[]]]]; lra.
    + exists 1%R. split; [left; reflexivity|lra].
    + exists 3%R. split; [right; left; reflexivity|lra].
    + constructor; [right; reflexivity|]. constructor; [left; reflexivity|]. constructor; [right; reflexivity|constructor].
Qed.

(** With f64 the distance from a row of zeros is not a number, whatever the other row is: it is within no
    tolerance, not even from itself.  (The trace without events has such a row unless all traces are like it.) *)
Theorem C59_cosine_zero_row : forall a b, (forall x, In x a -> is_zero x) ->
  cosine_f64 a b = S754_nan /\ forall tolerance, SFleb (cosine_f64 a b) tolerance = false /\ SFltb (cosine_f64 a b) tolerance = false.
Proof. intros a b H. rewrite (cosine_nan a b H). split; [reflexivity|]. intros tolerance. split; destruct tolerance; reflexivity. Qed.
Print Assumptions C59_cosine_zero_row.
Example C59_cosine_zero_case : exists d row,
  traces_dataset_default None (fun l => l) [[ev_ "x"; ev_ "y"]; []] SrcEvents = Ok d /\ nth_error (da_values d) 1 = Some row /\ same_row row [0; 0]%Q /\
  cosine_f64 [S754_zero false; S754_zero false] [S754_zero false; S754_zero false] = S754_nan.
Proof. do 2 eexists. split; [vm_compute; reflexivity|]. split; [reflexivity|]. split; [repeat constructor|vm_compute; reflexivity]. Qed.
