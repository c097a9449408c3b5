(** Further theorems for C37, C55, C62, C69 and C71. *)
From Verif Require Import Py PyFacts XesModel TextModel LogModel PatternModel HeapModel PipeModel TreeModel ActModel ActLogModel ReportModel RInfoModel RActModel RLogModel RPipeModel.
From Verif Require SufModel.

(** C37: a part which is appended runs last, on what the others give, whatever they do and also when one of them fails. *)
Theorem C37_append : forall X (parts : list (@PipeModel.part X)) p input w,
  exec_pipeline (pipeline_append parts p) input w = (let (w', r) := exec_pipeline parts input w in match r with Ok v => exec_part p v w' | Err e => (w', Err e) end).
Proof.
  intros X parts p input w. unfold exec_pipeline, run_pipeline, pipeline_append, abind, reset_colors. generalize (mkWorld (w_heap w) [] (w_rest w)). clear w. revert input.
  induction parts as [|q r IH]; intros input w; cbn.
  - unfold abind, aret. destruct (exec_part p input w) as [w' [v|e]]; reflexivity.
  - unfold abind. destruct (exec_part q input w) as [w' [v|e]]; [apply IH|reflexivity].
Qed.
Print Assumptions C37_append.
Example C37_append_case : forall h, let add k : @PipeModel.part unit := Prim (fun _ w => (mkWorld (w_heap w) (w_colors w) tt, Ok (HAtom (VInt k)))) in
  snd (exec_pipeline (pipeline_append [add 1%Z] (add 2%Z)) (HAtom (VInt 0)) (mkWorld h [] tt)) = Ok (HAtom (VInt 2)).
Proof. intros h. reflexivity. Qed.

(** C55: what is printed about activities: a heading and the name of each activity with an empty line after it; how many there are. *)
Theorem C55_printed : forall activities, print_activities false activities = [] /\
  nth_error (print_activities true activities) 0 = Some (str "Found activities:") /\ length (print_activities true activities) = 1 + 2 * length activities /\
  (forall k a, nth_error activities k = Some a -> nth_error (print_activities true activities) (1 + 2 * k) = Some (nd_name (an_data a)) /\ nth_error (print_activities true activities) (2 + 2 * k) = Some []) /\
  print_count activities = [str "Discovered " ++ show_int (Z.of_nat (length activities)) ++ str " activities"].
Proof.
  intros l. split; [reflexivity|]. split; [reflexivity|]. split; [|split; [|reflexivity]].
  - unfold print_activities. cbn [length Nat.add]. f_equal. induction l as [|a l IH]; [reflexivity|]. cbn [flat_map app length]. rewrite IH. lia.
  - unfold print_activities. induction l as [|a l IH]; intros [|k] x; cbn [nth_error]; try discriminate.
    + intros H. injection H as <-. split; reflexivity.
    + intros H. destruct (IH k x H) as [A B]. replace (1 + 2 * S k) with (S (S (1 + 2 * k))) by lia. replace (2 + 2 * S k) with (S (S (2 + 2 * k))) by lia. split; [exact A|exact B].
Qed.
Print Assumptions C55_printed.
Example C55_printed_case : print_count [] = [str "Discovered 0 activities"].
Proof. reflexivity. Qed.

(** C62: the number of events is that of all traces together. *)
Theorem C62_events : forall log, r_count_events log = length (concat log).
Proof. induction log as [|t log IH]; [reflexivity|]. unfold r_count_events in *. cbn [map concat list_sum fold_right]. rewrite app_length, <- IH. reflexivity. Qed.
Print Assumptions C62_events.
Example C62_events_case : r_count_events [[str "a"; str "b"]; []; [str "a"]] = 3.
Proof. reflexivity. Qed.

(** C69: the kinds of narrowing and the texts for them; any other text is an error. *)
Theorem C69_narrowing_names : forall s k, narrowing_of s = Some k <->
  s = match k with DontNarrow => str "DontNarrow" | StayTheSame => str "StayTheSame" | NarrowUp => str "NarrowUp" | NarrowDown => str "NarrowDown" end.
Proof.
  intros s k. unfold narrowing_of. split.
  - repeat match goal with |- context [str_eqb s ?x] => let E := fresh in destruct (str_eqb s x) eqn:E; [apply str_eqb_eq in E; subst s; let H := fresh in intros H; inversion H; subst; reflexivity|] end. discriminate.
  - intros ->. destruct k; reflexivity.
Qed.
Print Assumptions C69_narrowing_names.
Example C69_narrowing_names_case : narrowing_of (str "NarrowUp") = Some NarrowUp /\ narrowing_of (str "narrow_up") = None.
Proof. split; reflexivity. Qed.

Section C71.
  Context {A : Type} (name_of : A -> pystr) (fresh : pystr -> A) (sip : N -> N) (text_hash : pystr -> N) (ord : nat -> forall B : Type, list B -> list B).
  Variable compile : pystr -> option (pystr -> option (nat * nat)).
  (** The hash of each event is that of its name, or of the start of its name which the regex takes; a regex which is not one is a
      panic. *)
  Theorem C71_hashes : forall cfg log,
    (cf_regex cfg = None -> hashed_log name_of text_hash compile cfg log = Ok (map (map (fun e => text_hash (name_of (ev_about e)))) log)) /\
    (forall r, cf_regex cfg = Some r -> compile r = None -> hashed_log name_of text_hash compile cfg log = ReplayModel.rpanic) /\
    (forall r find, cf_regex cfg = Some r -> compile r = Some find -> exists hashes, hashed_log name_of text_hash compile cfg log = Ok hashes /\ length hashes = length log /\
       forall i t, nth_error log i = Some t -> exists h, nth_error hashes i = Some h /\ length h = length t /\
       forall j e, nth_error t j = Some e -> exists part, nth_error h j = Some (text_hash part) /\
         (forall n, find (name_of (ev_about e)) = Some (0, n) -> part = firstn n (name_of (ev_about e))) /\
         ((forall n, find (name_of (ev_about e)) <> Some (0, n)) -> part = name_of (ev_about e))).
  Proof.
    intros cfg log. unfold hashed_log, extractor. split; [|split].
    - intros ->. reflexivity.
    - intros r -> Hc. rewrite Hc. reflexivity.
    - intros r find -> Hc. rewrite Hc. cbn. eexists. split; [reflexivity|]. split; [apply map_length|]. intros i t Hi. eexists. split; [apply map_nth_error; exact Hi|]. split; [apply map_length|].
      intros j e Hj. exists (part_name (Some find) (name_of (ev_about e))). split; [apply (map_nth_error (event_hash name_of text_hash (Some find)) j t Hj)|]. unfold part_name. split.
      + intros n ->. reflexivity.
      + intros H. destruct (find (name_of (ev_about e))) as [[[|s] n]|] eqn:E; [exfalso; apply (H n); reflexivity|reflexivity|reflexivity].
  Qed.
  (** The log which is made from activities: what is put for events outside of them depends on the configuration. *)
  Theorem C71_undefined : forall c cfg log instances u, ac_log c = Some log -> ac_instances c = Some instances -> cf_undef cfg = Some u ->
    create_log fresh c cfg = match new_log (match u with DtoDontInsert => DontInsert | DtoInsertSingle => InsertSingle (fresh (str "UNDEFINED_ACTIVITY")) | DtoInsertAll => InsertAll end)
                                      (fun x => fresh (fst (an_data (in_node x)))) log instances with
                       | Ok new => Ok (mkACtx (Some new) (ac_hashes c) (ac_patterns c) (ac_repeat_sets c) (ac_activities c) (Some instances) (ac_name c))
                       | Err e => Err e
                       end.
  Proof. intros c cfg log instances u H1 H2 H3. unfold create_log. rewrite H1, H2, H3. cbn [need bind]. unfold strategy_of, undef_name, event_for. destruct u; (destruct (new_log _ _ log instances) as [n|e]; [cbn; unfold put_log; rewrite H2; reflexivity|reflexivity]). Qed.
End C71.
Print Assumptions C71_hashes.
Print Assumptions C71_undefined.
Definition REv (s : pystr) : revent pystr := REvent s None.
Definition tight_cfg (r : option pystr) : act_config := mkACfg None None None None r None None None None (Some DtoInsertSingle) None None None None.
Example C71_hashes_case : let compile (r : pystr) : option (pystr -> option (nat * nat)) := match r with [] => None | _ => Some (fun name => match name with [] => None | _ => Some (0, 1) end) end in
  let log := [[REv (str "ab"); REv (str "")]; [REv (str "ac")]] in
  hashed_log (fun x => x) (fun s => fold_left N.add s 0%N) compile (tight_cfg (Some (str "."))) log = Ok [[97%N; 0%N]; [97%N]] /\
  hashed_log (fun x => x) (fun s => fold_left N.add s 0%N) compile (tight_cfg None) log = Ok [[195%N; 0%N]; [196%N]] /\
  hashed_log (fun x => x) (fun s => fold_left N.add s 0%N) compile (tight_cfg (Some [])) log = ReplayModel.rpanic.
Proof. vm_compute. repeat split. Qed.
Example C71_undefined_case : let c := mkACtx (Some [[REv (str "a"); REv (str "b")]]) None None None None (Some [[]]) None in
  match create_log (fun n => n) c (tight_cfg None) with Ok c' => option_map (map (map ev_about)) (ac_log c') = Some [[str "UNDEFINED_ACTIVITY"]] | Err _ => False end.
Proof. vm_compute. reflexivity. Qed.
