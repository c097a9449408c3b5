(** Proofs for C75. *)
From Verif Require Import Py PyFacts WireModel BackendModel SvcModel SvcSpec.

Lemma set_nth_length {A} i (x : A) l : length (set_nth i x l) = length l.
Proof. revert i. induction l as [|y l IH]; intros [|i]; cbn; auto. Qed.
Lemma set_nth_same {A} i (x : A) l y : nth_error l i = Some y -> nth_error (set_nth i x l) i = Some x.
Proof. revert i. induction l as [|z l IH]; intros [|i] H; cbn in *; try discriminate; auto. Qed.
Lemma set_nth_other {A} i j (x : A) l : i <> j -> nth_error (set_nth i x l) j = nth_error l j.
Proof. revert i j. induction l as [|z l IH]; intros [|i] [|j] H; cbn; auto; try congruence; apply IH; congruence. Qed.

Lemma starts_refl {A} (l : list A) : starts l l.
Proof. exists []. now rewrite app_nil_r. Qed.
Lemma starts_app {A} (a b : list A) : starts a (a ++ b).
Proof. now exists b. Qed.
Lemma starts_trans {A} (a b c : list A) : starts a b -> starts b c -> starts a c.
Proof. intros [x ->] [y ->]. exists (x ++ y). now rewrite app_assoc. Qed.

Section Svc.
  Variable run : pystr -> userdata -> userdata -> list gmessage * step.
  Variable missing : pystr -> pystr.
  Variable guid : nat -> pystr.
  Notation work := (work guid).
  Notation act_step := (act_step run missing guid).
  Notation acts_run := (acts_run run missing guid).
  Notation pipeline_of := (pipeline_of run missing).

  Lemma acts_run_app h1 h2 s : acts_run (h1 ++ h2) s =
    match acts_run h1 s with
    | Some (s1, r1) => match acts_run h2 s1 with Some (s2, r2) => Some (s2, r1 ++ r2) | None => None end
    | None => None
    end.
  Proof.
    revert s. induction h1 as [|a h1 IH]; intros s; cbn.
    - destruct (acts_run h2 s) as [[s2 r2]|]; reflexivity.
    - destruct (act_step s a) as [[s' r]|]; [|reflexivity]. rewrite IH.
      destruct (acts_run h1 s') as [[s1 r1]|]; [|reflexivity].
      destruct (acts_run h2 s1) as [[s2 r2]|]; reflexivity.
  Qed.

  Lemma acts_run_snoc h a s : acts_run (h ++ [a]) s =
    match acts_run h s with
    | Some (s1, r1) => match act_step s1 a with Some (s2, r) => Some (s2, r1 ++ [r]) | None => None end
    | None => None
    end.
  Proof.
    rewrite acts_run_app. destruct (acts_run h s) as [[s1 r1]|]; [|reflexivity].
    cbn. destruct (act_step s1 a) as [[s2 r]|]; reflexivity.
  Qed.

  Lemma acts_run_length h s s' r : acts_run h s = Some (s', r) -> length r = length h.
  Proof.
    revert s s' r. induction h as [|a h IH]; intros s s' r H; cbn in H.
    - injection H as <- <-. reflexivity.
    - destruct (act_step s a) as [[s1 x]|]; [|discriminate].
      destruct (acts_run h s1) as [[s2 rs]|] eqn:E; [|discriminate].
      injection H as <- <-. cbn. f_equal. eauto.
  Qed.

  Lemma received_app i h1 r1 h2 r2 : length h1 = length r1 ->
    received i (h1 ++ h2) (r1 ++ r2) = received i h1 r1 ++ received i h2 r2.
  Proof.
    revert r1. induction h1 as [|a h1 IH]; intros [|x r1] H; cbn in H; try discriminate; [reflexivity|].
    injection H as H. cbn [app].
    assert (G : received i (a :: h1 ++ h2) (x :: r1 ++ r2) =
                match a, x with Receive j, AMessage m => if i =? j then [m] else [] | _, _ => [] end ++ received i (h1 ++ h2) (r1 ++ r2)).
    { destruct a; destruct x; cbn; try reflexivity. destruct (i =? i0); reflexivity. }
    assert (G' : received i (a :: h1) (x :: r1) =
                match a, x with Receive j, AMessage m => if i =? j then [m] else [] | _, _ => [] end ++ received i h1 r1).
    { destruct a; destruct x; cbn; try reflexivity. destruct (i =? i0); reflexivity. }
    rewrite G, G', (IH r1 H), app_assoc. reflexivity.
  Qed.

  (** * The two ways of looking at a request *)

  Definition final_of (i : nat) (s : step) : option gfinal :=
    match s with Done _ => Some (FSuccess (guid i)) | Failed e => Some (FError e) | Panicked => None end.
  Definition stream (i : nat) (rq : grequest) : list gmessage := fst (serve run missing (guid i) rq).

  Lemma serve_pipeline i rq :
    serve run missing (guid i) rq =
    (fst (pipeline_of rq) ++ match final_of i (snd (pipeline_of rq)) with Some f => [MFinal f] | None => [] end,
     match snd (pipeline_of rq) with Done c => Some c | _ => None end).
  Proof.
    unfold serve, SvcModel.pipeline_of.
    destruct (read_parts read_part (rq_pipeline rq)) as [parts|e]; [|reflexivity].
    destruct (initial_context (rq_context rq) []) as [c|e]; [|reflexivity].
    destruct (run_pipeline run missing parts c) as [msgs [c'|e|]]; cbn; rewrite ?app_nil_r; reflexivity.
  Qed.

  Lemma stream_eq i rq : stream i rq =
    fst (pipeline_of rq) ++ match final_of i (snd (pipeline_of rq)) with Some f => [MFinal f] | None => [] end.
  Proof. unfold stream. rewrite serve_pipeline. reflexivity. Qed.

  (** * One execution on its own *)

  Definition lstep (i : nat) (c : conn) (a : act) : option conn :=
    match a with
    | Work _ => option_map fst (work i c [])
    | Receive _ => match c with mkConn p (m :: q) true g => Some (mkConn p q true (g ++ [m])) | _ => None end
    | Close _ => match c with mkConn p _ true g => Some (mkConn p [] false g) | _ => None end
    | _ => None
    end.

  Lemma work_conn i c ctxs : option_map fst (work i c ctxs) = option_map fst (work i c []).
  Proof.
    unfold SvcModel.work. destruct (c_phase c) as [[|m rest] [?|?|]|f|]; try reflexivity;
    destruct (c_open c); try reflexivity; destruct (length (c_queue c) <? channel_capacity); reflexivity.
  Qed.

  Lemma act_step_local s a s' r i :
    act_step s a = Some (s', r) ->
    (concerns i a = true -> exists c c', nth_error (sv_conns s) i = Some c /\ lstep i c a = Some c' /\ nth_error (sv_conns s') i = Some c') /\
    (concerns i a = false -> forall c, nth_error (sv_conns s) i = Some c -> nth_error (sv_conns s') i = Some c).
  Proof.
    intros H. split.
    - intros Hc. destruct a as [rq|j|j|j|g k|g]; cbn in Hc; try discriminate; apply Nat.eqb_eq in Hc; subst j; cbn in H.
      + destruct (nth_error (sv_conns s) i) as [c|] eqn:E; [|discriminate].
        destruct (work i c (sv_contexts s)) as [[c' ctxs]|] eqn:W; [|discriminate].
        injection H as <- <-. exists c, c'. split; [reflexivity|]. split.
        * cbn. rewrite <- (work_conn i c (sv_contexts s)), W. reflexivity.
        * cbn. eapply set_nth_same, E.
      + destruct (nth_error (sv_conns s) i) as [[p [|m q] [] g]|] eqn:E; try discriminate.
        injection H as <- <-. eexists _, _. split; [reflexivity|]. split; [reflexivity|].
        cbn. eapply set_nth_same, E.
      + destruct (nth_error (sv_conns s) i) as [[p q [] g]|] eqn:E; try discriminate.
        injection H as <- <-. eexists _, _. split; [reflexivity|]. split; [reflexivity|].
        cbn. eapply set_nth_same, E.
    - intros Hc c E. destruct a as [rq|j|j|j|g k|g]; cbn in Hc, H.
      + destruct (pipeline_of rq) as [msgs st]. injection H as <- <-. cbn.
        rewrite nth_error_app1; [assumption|]. apply nth_error_Some. congruence.
      + apply Nat.eqb_neq in Hc. destruct (nth_error (sv_conns s) j); [|discriminate].
        destruct (work j c0 (sv_contexts s)) as [[c' ctxs]|]; [|discriminate].
        injection H as <- <-. cbn. rewrite set_nth_other by congruence. assumption.
      + apply Nat.eqb_neq in Hc. destruct (nth_error (sv_conns s) j) as [[p [|m q] [] g]|]; try discriminate.
        injection H as <- <-. cbn. rewrite set_nth_other by congruence. assumption.
      + apply Nat.eqb_neq in Hc. destruct (nth_error (sv_conns s) j) as [[p q [] g]|]; try discriminate.
        injection H as <- <-. cbn. rewrite set_nth_other by congruence. assumption.
      + injection H as <- <-. assumption.
      + injection H as <- <-. assumption.
  Qed.

  Lemma act_step_length s a s' r : act_step s a = Some (s', r) ->
    length (sv_conns s') = length (sv_conns s) + length (requests [a]).
  Proof.
    intros H. destruct a as [rq|j|j|j|g k|g]; cbn in H |- *.
    - destruct (pipeline_of rq). injection H as <- <-. cbn. rewrite app_length. reflexivity.
    - destruct (nth_error (sv_conns s) j); [|discriminate].
      destruct (work j c (sv_contexts s)) as [[c' ctxs]|]; [|discriminate].
      injection H as <- <-. cbn. rewrite set_nth_length. lia.
    - destruct (nth_error (sv_conns s) j) as [[p [|m q] [] g]|]; try discriminate.
      injection H as <- <-. cbn. rewrite set_nth_length. lia.
    - destruct (nth_error (sv_conns s) j) as [[p q [] g]|]; try discriminate.
      injection H as <- <-. cbn. rewrite set_nth_length. lia.
    - injection H as <- <-. lia.
    - injection H as <- <-. cbn. lia.
  Qed.

  Lemma requests_app h1 h2 : requests (h1 ++ h2) = requests h1 ++ requests h2.
  Proof. unfold requests. apply flat_map_app. Qed.

  (** * What holds of one execution *)

  Definition quiet (l : list gmessage) : Prop := forall t, ~ In (MLog t) l.
  Definition near (c : conn) (msgs todo : list gmessage) : Prop :=
    exists a b, msgs = a ++ b ++ todo /\ length a <= length (c_got c) + 4 /\ quiet b.
  Definition aborted (c : conn) (msgs : list gmessage) : Prop :=
    exists pre text post, msgs = pre ++ MLog text :: post /\ starts (c_got c) pre.
  Definition past (c : conn) : Prop := match c_phase c with Running _ _ => False | _ => True end.

  Definition CInv (i : nat) (rq : grequest) (c : conn) (works : nat) (closed : bool) : Prop :=
    let msgs := fst (pipeline_of rq) in
    let fin := snd (pipeline_of rq) in
    length (c_queue c) <= 4 /\
    (c_open c = negb closed) /\
    (c_open c = false -> c_queue c = []) /\
    match c_phase c with
    | Running todo s =>
        works + length todo <= length msgs /\
        if c_open c then msgs = c_got c ++ c_queue c ++ todo /\ s = fin
        else (s = fin /\ near c msgs todo /\ exists sent, msgs = sent ++ todo /\ starts (c_got c) sent) \/
             (todo = [] /\ (exists t, s = Failed (log_error t)) /\ aborted c msgs)
    | Announcing f =>
        works <= length msgs + 1 /\
        if c_open c then msgs = c_got c ++ c_queue c /\ final_of i fin = Some f
        else (final_of i fin = Some f /\ near c msgs [] /\ starts (c_got c) msgs) \/
             ((exists t, f = FError (log_error t)) /\ aborted c msgs)
    | Ended =>
        works <= length msgs + 2 /\
        if c_open c then stream i rq = c_got c ++ c_queue c
        else starts (c_got c) (stream i rq)
    end.

  Lemma aborted_starts i rq c : aborted c (fst (pipeline_of rq)) -> starts (c_got c) (stream i rq).
  Proof.
    intros [pre [t [post [E H]]]]. rewrite stream_eq, E. eapply starts_trans; [exact H|].
    rewrite <- app_assoc. apply starts_app.
  Qed.

  Lemma CInv_start i rq : CInv i rq (mkConn (Running (fst (pipeline_of rq)) (snd (pipeline_of rq))) [] true []) 0 false.
  Proof. unfold CInv. cbn. repeat (split; try reflexivity; try lia; try discriminate). Qed.

  Lemma CInv_got_starts i rq c n b : CInv i rq c n b -> starts (c_got c) (stream i rq).
  Proof.
    unfold CInv. intros [_ [_ [_ H]]].
    assert (S0 : starts (fst (pipeline_of rq)) (stream i rq)) by (rewrite stream_eq; apply starts_app).
    destruct (c_phase c) as [todo s|f|]; destruct H as [_ H]; destruct (c_open c).
    - destruct H as [E _]. eapply starts_trans; [|exact S0]. rewrite E. apply starts_app.
    - destruct H as [[_ [_ [sent [E H]]]]|[_ [_ H]]].
      + eapply starts_trans; [exact H|]. eapply starts_trans; [|exact S0]. rewrite E. apply starts_app.
      + now apply aborted_starts.
    - destruct H as [E _]. eapply starts_trans; [|exact S0]. rewrite E. apply starts_app.
    - destruct H as [[_ [_ H]]|[_ H]]; [eapply starts_trans; eassumption|now apply aborted_starts].
    - rewrite H. apply starts_app.
    - exact H.
  Qed.

  Definition is_work (i : nat) (a : act) : bool := match a with Work j => i =? j | _ => false end.
  Definition is_close (i : nat) (a : act) : bool := match a with Close j => i =? j | _ => false end.

  Lemma CInv_step i rq c a c' n b :
    CInv i rq c n b -> concerns i a = true -> lstep i c a = Some c' ->
    CInv i rq c' (n + if is_work i a then 1 else 0) (b || is_close i a).
  Proof.
    intros Hinv Hc Hl. pose proof (CInv_got_starts i rq c n b Hinv) as Hst.
    destruct a as [rq'|j|j|j|g k|g]; cbn in Hc; try discriminate; apply Nat.eqb_eq in Hc; subst j;
      cbn [is_work is_close]; rewrite ?Nat.eqb_refl, ?orb_false_r, ?orb_true_r, ?Nat.add_0_r.
    - (* Work *)
      unfold CInv in *. destruct Hinv as [Hq [Ho [Hcl H]]]. cbn in Hl. unfold SvcModel.work in Hl.
      destruct c as [p q o g]; cbn [c_phase c_queue c_open c_got] in *.
      destruct p as [[|m todo] s|f|].
      + destruct s as [ctx|e|]; cbn in Hl; injection Hl as <-; cbn [c_phase c_queue c_open c_got];
          split; try assumption; split; try assumption; split; try assumption;
          destruct H as [Hw H]; (split; [cbn in Hw; lia|]); destruct o.
        * destruct H as [E Es]. rewrite <- Es, app_nil_r in *. split; [assumption|reflexivity].
        * destruct H as [[Es [Hn [sent [E Hs]]]]|[_ [[t Et] _]]]; [|discriminate].
          left. rewrite <- Es. split; [reflexivity|]. split; [assumption|].
          rewrite app_nil_r in E. rewrite E. exact Hs.
        * destruct H as [E Es]. rewrite <- Es, app_nil_r in *. split; [assumption|reflexivity].
        * destruct H as [[Es [Hn [sent [E Hs]]]]|[_ [[t Et] Ha]]].
          -- left. rewrite <- Es. split; [reflexivity|]. split; [assumption|].
             rewrite app_nil_r in E. rewrite E. exact Hs.
          -- right. injection Et as ->. split; [now exists t|exact Ha].
        * destruct H as [E Es]. rewrite stream_eq, <- Es. cbn. rewrite E, !app_nil_r. reflexivity.
        * exact Hst.
      + destruct H as [Hw H]. destruct o.
        * destruct (length q <? channel_capacity) eqn:Eq; [|discriminate]. apply Nat.ltb_lt in Eq. unfold channel_capacity in Eq.
          cbn in Hl. injection Hl as <-. cbn [c_phase c_queue c_open c_got].
          split; [rewrite app_length; cbn; lia|]. split; [assumption|]. split; [discriminate|].
          destruct H as [E Es]. split; [cbn in Hw; lia|]. rewrite E, <- app_assoc. split; [reflexivity|assumption].
        * destruct H as [[Es [[a [d [En [Hlen Hd]]]] [sent [E Hs]]]]|[Et _]]; [|discriminate].
          cbn [c_got] in *.
          assert (Hcase : (exists t, m = MLog t) \/ (forall t, m <> MLog t)).
          { destruct m; try (right; intros t; discriminate). left. eexists. reflexivity. }
          destruct Hcase as [[t ->]|Hm]; cbn in Hl.
          -- injection Hl as <-. cbn [c_phase c_queue c_open c_got].
             split; [assumption|]. split; [assumption|]. split; [assumption|].
             split; [cbn in Hw |- *; lia|]. right. split; [reflexivity|]. split; [now exists t|].
             exists sent, t, todo. split; [exact E|exact Hs].
          -- assert (Hl' : c' = mkConn (Running todo s) q false g).
             { destruct m; cbn in Hl; try (injection Hl as <-; reflexivity). exfalso. eapply Hm. reflexivity. }
             subst c'. cbn [c_phase c_queue c_open c_got].
             split; [assumption|]. split; [assumption|]. split; [assumption|].
             split; [cbn in Hw |- *; lia|]. left. split; [assumption|]. split.
             ++ exists a, (d ++ [m]). split; [rewrite En, <- app_assoc; reflexivity|]. split; [exact Hlen|].
                intros t Ht. apply in_app_iff in Ht. destruct Ht as [Ht|[Ht|[]]]; [now apply (Hd t)|now apply (Hm t)].
             ++ exists (sent ++ [m]). split; [rewrite E, <- app_assoc; reflexivity|].
                eapply starts_trans; [exact Hs|apply starts_app].
      + destruct H as [Hw H]. destruct o.
        * destruct (length q <? channel_capacity) eqn:Eq; [|discriminate]. apply Nat.ltb_lt in Eq. unfold channel_capacity in Eq.
          cbn in Hl. injection Hl as <-. cbn [c_phase c_queue c_open c_got].
          split; [rewrite app_length; cbn; lia|]. split; [assumption|]. split; [discriminate|].
          destruct H as [E Ef]. split; [lia|]. rewrite stream_eq, Ef, E, <- app_assoc. reflexivity.
        * cbn in Hl. injection Hl as <-. cbn [c_phase c_queue c_open c_got].
          split; [assumption|]. split; [assumption|]. split; [assumption|]. split; [lia|exact Hst].
      + discriminate.
    - (* Receive *)
      unfold CInv in *. destruct Hinv as [Hq [Ho [Hcl H]]].
      destruct c as [p [|m q] [] g]; cbn in Hl; try discriminate. injection Hl as <-.
      cbn [c_phase c_queue c_open c_got] in *.
      split; [cbn in Hq; lia|]. split; [assumption|]. split; [discriminate|].
      destruct p as [todo s|f|]; destruct H as [Hw H]; (split; [exact Hw|]); cbn [app] in *;
        rewrite <- ?app_assoc; cbn; auto.
    - (* Close *)
      unfold CInv in *. destruct Hinv as [Hq [Ho [Hcl H]]].
      destruct c as [p q [] g]; cbn in Hl; try discriminate. injection Hl as <-.
      cbn [c_phase c_queue c_open c_got] in *.
      split; [cbn; lia|]. split; [reflexivity|]. split; [reflexivity|].
      destruct p as [todo s|f|]; destruct H as [Hw H]; (split; [exact Hw|]).
      + destruct H as [E Es]. left. split; [exact Es|]. split.
        * exists (g ++ q), []. cbn [c_got]. split; [rewrite E, <- app_assoc; reflexivity|].
          split; [rewrite app_length; lia|intros t []].
        * exists (g ++ q). split; [rewrite E, <- app_assoc; reflexivity|apply starts_app].
      + destruct H as [E Es]. left. split; [exact Es|]. split.
        * exists (g ++ q), []. cbn [c_got]. split; [rewrite E, app_nil_r; reflexivity|].
          split; [rewrite app_length; lia|intros t []].
        * rewrite E. apply starts_app.
      + exact Hst.
  Qed.

  (** * The whole service *)

  Definition works (i : nat) (h : list act) : nat := length (filter (is_work i) h).
  Definition closed (i : nat) (h : list act) : bool := existsb (is_close i) h.

  Lemma lstep_got i c a c' s s' r h rs :
    nth_error (sv_conns s) i = Some c -> lstep i c a = Some c' -> act_step s a = Some (s', r) -> concerns i a = true ->
    length h = length rs -> c_got c = received i h rs -> c_got c' = received i (h ++ [a]) (rs ++ [r]).
  Proof.
    intros E Hl H Hc Hlen Hg. rewrite received_app by assumption. rewrite <- Hg.
    destruct a as [rq|j|j|j|g k|g]; cbn in Hc; try discriminate; apply Nat.eqb_eq in Hc; subst j; cbn in H, Hl.
    - rewrite E in H. destruct (work i c (sv_contexts s)) as [[c1 ctxs]|] eqn:W; [|discriminate].
      injection H as <- <-. cbn. rewrite app_nil_r.
      unfold SvcModel.work in Hl. destruct c as [p q o gt]; cbn [c_phase c_queue c_open c_got] in *.
      destruct p as [[|m todo] [?|?|]|f|]; destruct o; try destruct (length q <? channel_capacity); cbn in Hl; try discriminate;
        injection Hl as <-; reflexivity.
    - rewrite E in H. destruct c as [p [|m q] [] gt]; try discriminate. injection H as <- <-. injection Hl as <-.
      cbn. rewrite Nat.eqb_refl. reflexivity.
    - rewrite E in H. destruct c as [p q [] gt]; try discriminate. injection H as <- <-. injection Hl as <-.
      cbn. rewrite app_nil_r. reflexivity.
  Qed.

  Lemma received_other i h rs a r : length h = length rs -> concerns i a = false ->
    received i (h ++ [a]) (rs ++ [r]) = received i h rs.
  Proof.
    intros Hlen Hc. rewrite received_app by assumption.
    replace (received i [a] [r]) with (@nil gmessage); [now rewrite app_nil_r|].
    destruct a; destruct r; cbn in *; try reflexivity. rewrite Hc. reflexivity.
  Qed.

  Lemma received_unborn i h rs s : acts_run h new_service = Some (s, rs) -> length (sv_conns s) <= i -> received i h rs = [].
  Proof.
    revert rs s. induction h as [|a h IH] using rev_ind; intros rs s H Hi; [destruct rs; reflexivity|].
    rewrite acts_run_snoc in H. destruct (acts_run h new_service) as [[s1 r1]|] eqn:E; [|discriminate].
    destruct (act_step s1 a) as [[s2 r]|] eqn:E2; [|discriminate]. injection H as <- <-.
    pose proof (act_step_length _ _ _ _ E2) as L. pose proof (acts_run_length _ _ _ _ E) as L1.
    assert (concerns i a = false) as Hc.
    { destruct (concerns i a) eqn:Hc; [|reflexivity].
      destruct (proj1 (act_step_local _ _ _ _ i E2) Hc) as [c [c' [_ [_ X]]]].
      assert (i < length (sv_conns s2)) by (apply nth_error_Some; congruence). lia. }
    rewrite received_other by (congruence || assumption). eapply IH; [reflexivity|]. lia.
  Qed.

  Lemma inv_conns h s rs : acts_run h new_service = Some (s, rs) ->
    length (sv_conns s) = length (requests h) /\
    forall i rq, nth_error (requests h) i = Some rq ->
      exists c, nth_error (sv_conns s) i = Some c /\ CInv i rq c (works i h) (closed i h) /\ c_got c = received i h rs.
  Proof.
    revert s rs. induction h as [|a h IH] using rev_ind; intros s rs H.
    { cbn in H. injection H as <- <-. split; [reflexivity|]. intros [|i] rq X; discriminate. }
    rewrite acts_run_snoc in H. destruct (acts_run h new_service) as [[s1 r1]|] eqn:E; [|discriminate].
    destruct (act_step s1 a) as [[s2 r]|] eqn:E2; [|discriminate]. injection H as <- <-.
    destruct (IH _ _ eq_refl) as [L I]. pose proof (act_step_length _ _ _ _ E2) as L2.
    pose proof (acts_run_length _ _ _ _ E) as Lr.
    split; [rewrite requests_app, app_length; lia|].
    intros i rq X. rewrite requests_app in X.
    assert (Hw : works i (h ++ [a]) = works i h + if is_work i a then 1 else 0).
    { unfold works. rewrite filter_app, app_length. cbn. destruct (is_work i a); reflexivity. }
    assert (Hcl : closed i (h ++ [a]) = closed i h || is_close i a).
    { unfold closed. rewrite existsb_app. cbn. rewrite orb_false_r. reflexivity. }
    rewrite Hw, Hcl.
    destruct (lt_dec i (length (requests h))) as [Hi|Hi].
    - rewrite nth_error_app1 in X by assumption. destruct (I i rq X) as [c [Ec [Ci Cg]]].
      destruct (concerns i a) eqn:Hc.
      + destruct (proj1 (act_step_local _ _ _ _ i E2) Hc) as [c0 [c' [E0 [Hl E']]]].
        assert (c0 = c) by congruence. subst c0. exists c'. split; [assumption|]. split.
        * eapply CInv_step; eassumption.
        * apply (lstep_got i c a c' s1 s2 r h r1); auto.
      + exists c. split; [now apply (proj2 (act_step_local _ _ _ _ i E2) Hc)|].
        assert (is_work i a = false /\ is_close i a = false) as [-> ->]
          by (destruct a; cbn in *; auto). rewrite orb_false_r, Nat.add_0_r. split; [assumption|].
        rewrite received_other; auto.
    - rewrite nth_error_app2 in X by lia. destruct a as [rq'|j|j|j|g k|g]; cbn in X; try (destruct (i - length (requests h)); discriminate).
      assert (i = length (requests h)) as ->.
      { destruct (i - length (requests h)) as [|k] eqn:Ek; [lia|]. cbn in X. destruct k; discriminate. }
      rewrite Nat.sub_diag in X. cbn in X. injection X as ->.
      cbn in E2. destruct (pipeline_of rq) as [msgs st] eqn:Ep. injection E2 as <- <-. cbn [sv_conns].
      rewrite nth_error_app2 by lia. rewrite L, Nat.sub_diag. cbn. eexists. split; [reflexivity|].
      assert (Z : forall f : nat -> act -> bool, (forall i a, f i a = true -> concerns i a = true) ->
                  forall x, In x h -> f (length (requests h)) x = false).
      { intros f Hf x Hx. destruct (f (length (requests h)) x) eqn:Fx; [|reflexivity]. exfalso.
        apply Hf in Fx. apply in_split in Hx. destruct Hx as [h1 [h2 ->]].
        rewrite acts_run_app in E. destruct (acts_run h1 new_service) as [[sa ra]|]; [|discriminate].
        cbn in E. destruct (act_step sa x) as [[sb rb]|] eqn:Ex; [|discriminate].
        destruct (acts_run h2 sb) as [[sc rc]|] eqn:Ec; [|discriminate]. injection E as <- <-.
        destruct (proj1 (act_step_local _ _ _ _ _ Ex) Fx) as [c0 [c' [_ [_ E']]]].
        assert (mono : forall l s s' r, acts_run l s = Some (s', r) -> length (sv_conns s) <= length (sv_conns s')).
        { induction l as [|y l IHl]; intros u u' w Hu; cbn in Hu; [injection Hu as <- <-; lia|].
          destruct (act_step u y) as [[u1 w1]|] eqn:Eu; [|discriminate].
          destruct (acts_run l u1) as [[u2 w2]|] eqn:Eu2; [|discriminate]. injection Hu as <- <-.
          pose proof (act_step_length _ _ _ _ Eu). pose proof (IHl _ _ _ Eu2). lia. }
        pose proof (mono _ _ _ _ Ec).
        assert (length (requests (h1 ++ x :: h2)) < length (sv_conns sb)) by (apply nth_error_Some; congruence).
        lia. }
      assert (works (length (requests h)) h = 0) as ->.
      { unfold works. assert (F : filter (is_work (length (requests h))) h = []).
        { assert (G : forall x, In x h -> is_work (length (requests h)) x = false)
            by (apply Z; intros ? [] ?; cbn in *; auto; discriminate).
          clear -G. revert G. generalize (is_work (length (requests h))). intros f G. induction h as [|x l IHl]; [reflexivity|].
          cbn. rewrite G by now left. apply IHl. intros y Hy. apply G. now right. }
        rewrite F. reflexivity. }
      assert (closed (length (requests h)) h = false) as ->.
      { unfold closed. destruct (existsb (is_close (length (requests h))) h) eqn:Ex; [|reflexivity].
        apply existsb_exists in Ex. destruct Ex as [x [Hx Fx]].
        rewrite (Z is_close) in Fx; [discriminate| |assumption]. intros ? [] ?; cbn in *; auto; discriminate. }
      cbn [is_work is_close Nat.add orb]. split.
      + replace msgs with (fst (pipeline_of rq)) by now rewrite Ep. replace st with (snd (pipeline_of rq)) by now rewrite Ep.
        apply CInv_start.
      + rewrite received_other by (congruence || reflexivity). rewrite received_unborn with (s := s1); auto. lia.
  Qed.

  (** ** The contexts kept *)

  Hypothesis guid_inj : forall i j, guid i = guid j -> i = j.

  Definition SInv (h : list act) (s : service) : Prop :=
    NoDup (dkeys (sv_contexts s)) /\
    (forall g ctx, dget str_eq_dec (sv_contexts s) g = Some ctx ->
       exists i rq c, guid i = g /\ nth_error (requests h) i = Some rq /\ nth_error (sv_conns s) i = Some c /\ past c /\
         snd (pipeline_of rq) = Done ctx /\ near c (fst (pipeline_of rq)) []) /\
    (forall i rq c ctx, nth_error (requests h) i = Some rq -> nth_error (sv_conns s) i = Some c -> past c ->
       snd (pipeline_of rq) = Done ctx ->
       dget str_eq_dec (sv_contexts s) (guid i) = Some ctx \/ In (Drop (guid i)) h \/
       (c_open c = false /\ aborted c (fst (pipeline_of rq)))).

  Lemma past_stays i c a c' : lstep i c a = Some c' -> past c -> past c'.
  Proof.
    unfold past. destruct a as [rq|j|j|j|g k|g]; cbn; try discriminate; intros H Hp; destruct c as [p q o gt]; cbn [c_phase c_queue c_open c_got] in *.
    - unfold SvcModel.work in H; cbn [c_phase c_queue c_open c_got] in H. destruct p as [? ?|f|]; [contradiction| |discriminate].
      destruct o; [destruct (length q <? channel_capacity)|]; cbn in H; try discriminate; injection H as <-; exact I.
    - destruct q; [discriminate|]. destruct o; [|discriminate]. injection H as <-. exact Hp.
    - destruct o; [|discriminate]. injection H as <-. exact Hp.
  Qed.

  Lemma lstep_grows i c a c' : lstep i c a = Some c' -> starts (c_got c) (c_got c') /\
    (c_open c = false -> c_open c' = false /\ c_got c' = c_got c).
  Proof.
    destruct a as [rq|j|j|j|g k|g]; cbn; try discriminate; intros H; destruct c as [p q o gt]; cbn [c_phase c_queue c_open c_got] in *.
    - unfold SvcModel.work in H; cbn [c_phase c_queue c_open c_got] in H.
      destruct p as [[|m todo] [?|?|]|f|]; destruct o; try destruct (length q <? channel_capacity); cbn in H; try discriminate;
        injection H as <-; (split; [apply starts_refl|]); auto; discriminate.
    - destruct q; [discriminate|]. destruct o; [|discriminate]. injection H as <-. cbn. split; [apply starts_app|discriminate].
    - destruct o; [|discriminate]. injection H as <-. cbn. split; [apply starts_refl|discriminate].
  Qed.

  Lemma near_grows c c' msgs todo : starts (c_got c) (c_got c') -> near c msgs todo -> near c' msgs todo.
  Proof.
    intros [x E] [a [b [H1 [H2 H3]]]]. exists a, b. rewrite E, app_length. split; [assumption|]. split; [lia|assumption].
  Qed.

  Lemma inv_contexts h s rs : acts_run h new_service = Some (s, rs) -> SInv h s.
  Proof.
    revert s rs. induction h as [|a h IH] using rev_ind; intros s rs H.
    { cbn in H. injection H as <- <-. split; [constructor|]. split; [discriminate|]. intros [|i] rq c ctx X; discriminate. }
    pose proof (inv_conns _ _ _ H) as [L' I'].
    rewrite acts_run_snoc in H. destruct (acts_run h new_service) as [[s1 r1]|] eqn:E; [|discriminate].
    destruct (act_step s1 a) as [[s2 r]|] eqn:E2; [|discriminate]. injection H as <- <-.
    destruct (IH _ _ eq_refl) as [N [A B]]. pose proof (inv_conns _ _ _ E) as [L I0].
    pose proof (act_step_length _ _ _ _ E2) as L2. pose proof (acts_run_length _ _ _ _ E) as Lr.
    (* old entries stay related *)
    assert (A1 : forall g ctx, dget str_eq_dec (sv_contexts s1) g = Some ctx ->
       exists i rq c, guid i = g /\ nth_error (requests (h ++ [a])) i = Some rq /\ nth_error (sv_conns s2) i = Some c /\ past c /\
         snd (pipeline_of rq) = Done ctx /\ near c (fst (pipeline_of rq)) []).
    { intros g ctx Hg. destruct (A g ctx Hg) as [i [rq [c [Hi [Hr [Hc [Hp [Hs Hn]]]]]]]].
      destruct (concerns i a) eqn:Hcn.
      - destruct (proj1 (act_step_local _ _ _ _ i E2) Hcn) as [c0 [c' [E0 [Hl E']]]].
        assert (c0 = c) by congruence. subst c0. exists i, rq, c'.
        split; [assumption|]. split.
        { rewrite requests_app. rewrite nth_error_app1; [assumption|]. apply nth_error_Some. congruence. }
        split; [assumption|]. split; [eapply past_stays; eauto|]. split; [assumption|].
        eapply near_grows; [|exact Hn]. eapply lstep_grows, Hl.
      - exists i, rq, c. split; [assumption|]. split.
        { rewrite requests_app. rewrite nth_error_app1; [assumption|]. apply nth_error_Some. congruence. }
        split; [now apply (proj2 (act_step_local _ _ _ _ i E2) Hcn)|]. auto. }
    (* old successes stay accounted for while the table only grows elsewhere *)
    assert (B1 : forall i rq c' ctx, nth_error (requests (h ++ [a])) i = Some rq -> nth_error (sv_conns s2) i = Some c' ->
       snd (pipeline_of rq) = Done ctx -> (exists c, nth_error (sv_conns s1) i = Some c /\ past c) ->
       (dget str_eq_dec (sv_contexts s1) (guid i) = Some ctx -> dget str_eq_dec (sv_contexts s2) (guid i) = Some ctx \/ a = Drop (guid i)) ->
       dget str_eq_dec (sv_contexts s2) (guid i) = Some ctx \/ In (Drop (guid i)) (h ++ [a]) \/
       (c_open c' = false /\ aborted c' (fst (pipeline_of rq)))).
    { intros i rq c' ctx Hr Hc' Hs [c [Hc Hp]] Hd.
      assert (Hr1 : nth_error (requests h) i = Some rq).
      { rewrite requests_app in Hr. rewrite nth_error_app1 in Hr; [assumption|].
        rewrite <- L. apply nth_error_Some. congruence. }
      destruct (B i rq c ctx Hr1 Hc Hp Hs) as [D|[D|[Ho Ha]]].
      - destruct (Hd D) as [D'|D']; [left; assumption|right; left]. rewrite D'. apply in_or_app. right. now left.
      - right; left. apply in_or_app. now left.
      - right; right. destruct (concerns i a) eqn:Hcn.
        + destruct (proj1 (act_step_local _ _ _ _ i E2) Hcn) as [c0 [c1 [E0 [Hl E']]]].
          assert (c0 = c) by congruence. assert (c1 = c') by congruence. subst c0 c1.
          destruct (lstep_grows _ _ _ _ Hl) as [_ G]. destruct (G Ho) as [Ho' Eg]. split; [assumption|].
          destruct Ha as [pre [t [post [Em Hst]]]]. exists pre, t, post. rewrite Eg. split; assumption.
        + assert (c' = c) by (rewrite (proj2 (act_step_local _ _ _ _ i E2) Hcn c Hc) in Hc'; congruence). subst c'. split; assumption. }
    (* executions that just became past *)
    assert (B2 : forall i rq c' ctx, nth_error (requests (h ++ [a])) i = Some rq -> nth_error (sv_conns s2) i = Some c' -> past c' ->
       snd (pipeline_of rq) = Done ctx ->
       (exists c, nth_error (sv_conns s1) i = Some c /\ past c) \/
       (a = Work i /\ (dget str_eq_dec (sv_contexts s2) (guid i) = Some ctx \/ c_open c' = false /\ aborted c' (fst (pipeline_of rq))))).
    { intros i rq c' ctx Hr Hc' Hp Hs.
      destruct (nth_error (sv_conns s1) i) as [c|] eqn:Hc.
      - destruct (c_phase c) as [todo st|f|] eqn:Ph; [|left; exists c; unfold past; rewrite Ph; auto|left; exists c; unfold past; rewrite Ph; auto].
        right. destruct (concerns i a) eqn:Hcn.
        2:{ rewrite (proj2 (act_step_local _ _ _ _ i E2) Hcn c Hc) in Hc'. injection Hc' as <-. unfold past in Hp. rewrite Ph in Hp. contradiction. }
        destruct (I0 i rq) as [c0 [Ec0 [Ci _]]].
        { rewrite requests_app in Hr. rewrite nth_error_app1 in Hr; [assumption|]. rewrite <- L. apply nth_error_Some. congruence. }
        assert (c0 = c) by congruence. subst c0.
        destruct a as [rq'|j|j|j|g k|g]; cbn in Hcn; try discriminate; apply Nat.eqb_eq in Hcn; subst j.
        + split; [reflexivity|]. cbn in E2. rewrite Hc in E2.
          destruct c as [p q o gt]; cbn in Ph; subst p. unfold SvcModel.work in E2; cbn [c_phase c_open c_queue c_got] in E2.
          unfold CInv in Ci; cbn [c_phase c_open c_queue c_got] in Ci. destruct Ci as [_ [_ [_ [_ Ci]]]].
          destruct todo as [|m todo].
          * destruct st as [c1|e|]; injection E2 as <- <-; cbn [sv_conns sv_contexts] in *;
              rewrite (set_nth_same _ _ _ _ Hc) in Hc'; injection Hc' as <-; cbn [c_open c_got].
            -- left. rewrite dget_dset_same. f_equal.
               destruct o; [destruct Ci as [_ Es]|destruct Ci as [[Es _]|[_ [[t Et] _]]]]; congruence.
            -- destruct o; [destruct Ci as [_ Es]; congruence|]. destruct Ci as [[Es _]|[_ [_ Ha]]]; [congruence|].
               right. split; [reflexivity|exact Ha].
            -- destruct o; [destruct Ci as [_ Es]; congruence|]. destruct Ci as [[Es _]|[_ [[t Et] _]]]; congruence.
          * exfalso. destruct o.
            -- destruct (length q <? channel_capacity); [|discriminate]. injection E2 as <- <-. cbn [sv_conns] in Hc'.
               rewrite (set_nth_same _ _ _ _ Hc) in Hc'. injection Hc' as <-. exact Hp.
            -- injection E2 as <- <-. cbn [sv_conns] in Hc'.
               rewrite (set_nth_same _ _ _ _ Hc) in Hc'. injection Hc' as <-. destruct m; exact Hp.
        + exfalso. cbn in E2. rewrite Hc in E2. destruct c as [p [|m q] [] gt]; try discriminate. injection E2 as <- <-.
          cbn [sv_conns] in Hc'. rewrite (set_nth_same _ _ _ _ Hc) in Hc'. injection Hc' as <-. cbn in Ph, Hp. subst p. exact Hp.
        + exfalso. cbn in E2. rewrite Hc in E2. destruct c as [p q [] gt]; try discriminate. injection E2 as <- <-.
          cbn [sv_conns] in Hc'. rewrite (set_nth_same _ _ _ _ Hc) in Hc'. injection Hc' as <-. cbn in Ph, Hp. subst p. exact Hp.
      - exfalso. assert (length (sv_conns s1) <= i) by (apply nth_error_None; assumption).
        destruct a as [rq'|j|j|j|g k|g]; cbn in E2.
        + destruct (pipeline_of rq') as [msgs st]. injection E2 as <- <-. cbn [sv_conns] in Hc'.
          rewrite nth_error_app2 in Hc' by assumption. destruct (i - length (sv_conns s1)) as [|k]; cbn in Hc'.
          * injection Hc' as <-. exact Hp.
          * destruct k; discriminate.
        + destruct (nth_error (sv_conns s1) j); [|discriminate]. destruct (work j c (sv_contexts s1)) as [[? ?]|]; [|discriminate].
          injection E2 as <- <-. cbn [sv_conns] in Hc'. assert (i < length (sv_conns s1)); [|lia].
          rewrite <- (set_nth_length j c0). apply nth_error_Some. congruence.
        + destruct (nth_error (sv_conns s1) j) as [[p [|m q] [] gt]|]; try discriminate.
          injection E2 as <- <-. cbn [sv_conns] in Hc'. assert (i < length (sv_conns s1)); [|lia].
          rewrite <- (set_nth_length j (mkConn p q true (gt ++ [m]))). apply nth_error_Some. congruence.
        + destruct (nth_error (sv_conns s1) j) as [[p q [] gt]|]; try discriminate.
          injection E2 as <- <-. cbn [sv_conns] in Hc'. assert (i < length (sv_conns s1)); [|lia].
          rewrite <- (set_nth_length j (mkConn p [] false gt)). apply nth_error_Some. congruence.
        + injection E2 as <- <-. congruence.
        + injection E2 as <- <-. cbn in Hc'. congruence. }
    (* how the table changes *)
    assert (T : (exists i rq c ctx, a = Work i /\ sv_contexts s2 = dset str_eq_dec (sv_contexts s1) (guid i) ctx /\
                   nth_error (requests h) i = Some rq /\ nth_error (sv_conns s1) i = Some c /\ c_phase c = Running [] (Done ctx) /\
                   nth_error (sv_conns s2) i = Some (mkConn (Announcing (FSuccess (guid i))) (c_queue c) (c_open c) (c_got c))) \/
                (exists g, a = Drop g /\ sv_contexts s2 = ddel str_eq_dec (sv_contexts s1) g /\ sv_conns s2 = sv_conns s1) \/
                (sv_contexts s2 = sv_contexts s1)).
    { destruct a as [rq|j|j|j|g k|g]; cbn in E2.
      - destruct (pipeline_of rq). injection E2 as <- <-. auto.
      - destruct (nth_error (sv_conns s1) j) as [c|] eqn:Hc; [|discriminate].
        destruct (work j c (sv_contexts s1)) as [[c' ctxs]|] eqn:W; [|discriminate]. injection E2 as <- <-. cbn [sv_conns sv_contexts].
        unfold SvcModel.work in W. destruct (c_phase c) as [[|m todo] [ctx|e|]|f|] eqn:Ph; try discriminate W;
          try (injection W as <- <-; auto; fail);
          try (destruct (c_open c); [destruct (length (c_queue c) <? channel_capacity)|]; try discriminate W; injection W as <- <-; auto; fail).
        injection W as <- <-. left.
        destruct (nth_error (requests h) j) as [rq|] eqn:Hr.
        2:{ apply nth_error_None in Hr. assert (j < length (sv_conns s1)) by (apply nth_error_Some; congruence). lia. }
        exists j, rq, c, ctx. repeat (split; [now auto|]). eapply set_nth_same, Hc.
      - destruct (nth_error (sv_conns s1) j) as [[p [|m q] [] gt]|]; try discriminate. injection E2 as <- <-. auto.
      - destruct (nth_error (sv_conns s1) j) as [[p q [] gt]|]; try discriminate. injection E2 as <- <-. auto.
      - injection E2 as <- <-. auto.
      - injection E2 as <- <-. right. left. exists g. auto. }
    destruct T as [[i [rq [c [ctx [-> [T [Hr [Hc [Ph Hc2]]]]]]]]]|[[g [-> [T Ec]]]|T]].
    - split; [rewrite T; apply dset_NoDup, N|]. split.
      + intros g ctx0 Hg. rewrite T in Hg. destruct (str_eq_dec g (guid i)) as [->|Hne].
        * rewrite dget_dset_same in Hg. injection Hg as <-.
          destruct (I0 i rq Hr) as [c0 [E0 [Ci _]]]. assert (c0 = c) by congruence. subst c0.
          eexists i, rq, _. split; [reflexivity|]. split.
          { rewrite requests_app. rewrite nth_error_app1; [assumption|]. apply nth_error_Some. congruence. }
          split; [exact Hc2|]. split; [exact I|].
          unfold CInv in Ci. rewrite Ph in Ci. destruct Ci as [Hq [_ [_ [_ Ci]]]]. destruct (c_open c).
          -- destruct Ci as [Em Es]. split; [congruence|]. exists (c_got c ++ c_queue c), []. cbn [c_got].
             split; [rewrite Em, !app_nil_r; reflexivity|]. split; [rewrite app_length; lia|intros t []].
          -- destruct Ci as [[Es [Hn _]]|[_ [[t Et] _]]]; [|discriminate]. split; [congruence|exact Hn].
        * rewrite dget_dset_other in Hg by congruence. now apply A1.
      + intros j rq0 c' ctx0 Hr0 Hc' Hp Hs.
        destruct (B2 j rq0 c' ctx0 Hr0 Hc' Hp Hs) as [Hold|[Ea [D|D]]]; [|auto|auto].
        eapply B1; eauto. intros D. left. rewrite T. destruct (str_eq_dec (guid j) (guid i)) as [e|Hne].
        * apply guid_inj in e. subst j. destruct Hold as [c1 [E1 P1]]. assert (c1 = c) by congruence. subst c1.
          unfold past in P1. rewrite Ph in P1. contradiction.
        * rewrite dget_dset_other by congruence. exact D.
    - split; [rewrite T; apply ddel_NoDup, N|]. split.
      + intros g0 ctx0 Hg. rewrite T, dget_ddel in Hg by assumption. destruct (str_eq_dec g g0); [discriminate|]. now apply A1.
      + intros j rq0 c' ctx0 Hr0 Hc' Hp Hs.
        destruct (B2 j rq0 c' ctx0 Hr0 Hc' Hp Hs) as [Hold|[Ea _]]; [|discriminate].
        eapply B1; eauto. intros D. rewrite T, dget_ddel by assumption.
        destruct (str_eq_dec g (guid j)); [right; congruence|left; exact D].
    - split; [rewrite T; exact N|]. split.
      + intros g ctx0 Hg. rewrite T in Hg. now apply A1.
      + intros j rq0 c' ctx0 Hr0 Hc' Hp Hs.
        destruct (B2 j rq0 c' ctx0 Hr0 Hc' Hp Hs) as [Hold|[Ea [D|D]]]; [|auto|auto].
        eapply B1; eauto. intros D. left. rewrite T. exact D.
  Qed.

  (** ** What users see *)

  Lemma closed_false i h : ~ In (Close i) h -> closed i h = false.
  Proof.
    intros H. unfold closed. destruct (existsb (is_close i) h) eqn:E; [|reflexivity]. exfalso. apply H.
    apply existsb_exists in E. destruct E as [a [Ha Fa]]. destruct a; cbn in Fa; try discriminate.
    apply Nat.eqb_eq in Fa. subst. exact Ha.
  Qed.

  Lemma told_get contexts g k : told (dget str_eq_dec contexts g) k (get_context_value contexts g k).
  Proof.
    unfold get_context_value, find_key, told.
    destruct (dget str_eq_dec backend_keys k) as [t|] eqn:K.
    - assert (Hin : In k (map fst backend_keys)) by (apply (dget_Some_key str_eq_dec backend_keys); eauto).
      destruct (dget str_eq_dec contexts g) as [ctx|]; [|auto].
      destruct (dget str_eq_dec ctx k) as [v|] eqn:V.
      + destruct (value_grpc k v) as [x|] eqn:X.
        * split; [assumption|]. exists ctx, v. auto.
        * right; right; right. split; [assumption|]. exists ctx, v. auto.
      + right; right; left. split; [assumption|]. exists ctx. auto.
    - left. split; [|reflexivity]. apply (dget_None str_eq_dec) in K. exact K.
  Qed.

  Lemma stream_proof h s rs i rq :
    acts_run h new_service = Some (s, rs) -> nth_error (requests h) i = Some rq ->
    starts (received i h rs) (fst (serve run missing (guid i) rq)) /\
    (over s i -> ~ In (Close i) h -> act_step s (Receive i) = None ->
     received i h rs = fst (serve run missing (guid i) rq)).
  Proof.
    intros H Hr. destruct (inv_conns _ _ _ H) as [_ I0]. destruct (I0 i rq Hr) as [c [Ec [Ci Eg]]].
    rewrite <- Eg. split; [exact (CInv_got_starts _ _ _ _ _ Ci)|].
    intros [c0 [E0 Ph]] Hcl Hrec. assert (c0 = c) by congruence. subst c0.
    unfold CInv in Ci. rewrite (closed_false i h Hcl) in Ci. destruct Ci as [_ [Ho [_ Ci]]]. rewrite Ph in Ci.
    cbn in Ho. rewrite Ho in Ci. destruct Ci as [_ Ci].
    cbn in Hrec. rewrite Ec in Hrec. destruct c as [p [|m q] [] gt]; cbn in *; try discriminate.
    unfold stream in Ci. rewrite Ci, app_nil_r. reflexivity.
  Qed.

  Lemma run_parts_no_final (Hrun : forall name config c f, ~ In (MFinal f) (fst (run name config c))) parts ctx f :
    ~ In (MFinal f) (fst (run_parts run missing parts ctx)).
  Proof.
    revert ctx. induction parts as [|p rest IH]; intros ctx; cbn; [tauto|].
    assert (Hp : ~ In (MFinal f) (fst (run_part run missing p ctx))).
    { destruct p as [name config|keys u before]; cbn; [apply Hrun|].
      destruct (unknown_key keys); [cbn; tauto|].
      destruct before as [[name config]|].
      - specialize (Hrun name config ctx f). destruct (run name config ctx) as [msgs [c|e|]]; cbn in *; auto.
        destruct (collect keys c); cbn; auto. rewrite in_app_iff. cbn. intuition discriminate.
      - destruct (collect keys ctx); cbn; auto. intuition discriminate. }
    destruct (run_part run missing p ctx) as [msgs [c|e|]]; cbn in *; auto.
    specialize (IH c). destruct (run_parts run missing rest c) as [msgs' s']. cbn in *. rewrite in_app_iff. tauto.
  Qed.

  Lemma pipeline_no_final (Hrun : forall name config c f, ~ In (MFinal f) (fst (run name config c))) rq f :
    ~ In (MFinal f) (fst (pipeline_of rq)).
  Proof.
    unfold SvcModel.pipeline_of. destruct (read_parts read_part (rq_pipeline rq)); [|cbn; tauto].
    destruct (initial_context (rq_context rq) []); [|cbn; tauto]. apply run_parts_no_final, Hrun.
  Qed.

  Lemma starts_In {A} (a b : list A) x : starts a b -> In x a -> In x b.
  Proof. intros [r ->] H. apply in_or_app. now left. Qed.

  Lemma success_kept (Hrun : forall name config c f, ~ In (MFinal f) (fst (run name config c))) h s rs i rq g :
    acts_run h new_service = Some (s, rs) -> nth_error (requests h) i = Some rq ->
    In (MFinal (FSuccess g)) (received i h rs) ->
    g = guid i /\ exists ctx, snd (serve run missing g rq) = Some ctx /\
    (~ In (Drop g) h -> dget str_eq_dec (sv_contexts s) g = Some ctx).
  Proof.
    intros H Hr Hin. destruct (inv_conns _ _ _ H) as [_ I0]. destruct (I0 i rq Hr) as [c [Ec [Ci Eg]]].
    destruct (inv_contexts _ _ _ H) as [_ [_ B]].
    pose proof (CInv_got_starts _ _ _ _ _ Ci) as Hst. rewrite <- Eg in Hin.
    pose proof (starts_In _ _ _ Hst Hin) as Hs. rewrite stream_eq in Hs. apply in_app_iff in Hs.
    destruct Hs as [Hs|Hs]; [exfalso; eapply pipeline_no_final; eauto|].
    destruct (snd (pipeline_of rq)) as [ctx|e|] eqn:Fin; cbn in Hs; try contradiction; destruct Hs as [Hs|[]]; [|discriminate].
    injection Hs as <-. split; [reflexivity|]. exists ctx.
    split. { rewrite serve_pipeline, Fin. reflexivity. }
    intros Hd. pose proof (pipeline_no_final Hrun rq (FSuccess (guid i))) as Hno.
    assert (Hp : past c).
    { unfold past. unfold CInv in Ci. destruct Ci as [_ [_ [_ Ci]]]. destruct (c_phase c) as [todo st|f|]; auto.
      destruct Ci as [_ Ci]. apply Hno. destruct (c_open c).
      - destruct Ci as [-> _]. apply in_or_app. now left.
      - destruct Ci as [[_ [_ [sent [-> Hs]]]]|[_ [_ [pre [t [post [-> Hs]]]]]]];
          apply in_or_app; left; eapply starts_In; eauto. }
    destruct (B i rq c ctx Hr Ec Hp Fin) as [D|[D|[_ [pre [t [post [E Hs]]]]]]]; [assumption|contradiction|].
    exfalso. apply Hno. rewrite E. apply in_or_app. left. eapply starts_In; eauto.
  Qed.

  Lemma success_proof h s rs i rq g :
    (forall name config c f, ~ In (MFinal f) (fst (run name config c))) ->
    acts_run h new_service = Some (s, rs) -> nth_error (requests h) i = Some rq ->
    In (MFinal (FSuccess g)) (received i h rs) ->
    g = guid i /\ exists ctx, snd (serve run missing g rq) = Some ctx /\
    (~ In (Drop g) h ->
      (forall key, exists r, act_step s (Get g key) = Some (s, AGot r) /\ told (Some ctx) key r) /\
      (exists s', act_step s (Drop g) = Some (s', ADropped true))).
  Proof.
    intros Hrun H Hr Hin. destruct (success_kept Hrun h s rs i rq g H Hr Hin) as [E [ctx [Hs Hd]]].
    split; [assumption|]. exists ctx. split; [assumption|]. intros Hn. specialize (Hd Hn). split.
    - intros key. eexists. split; [reflexivity|]. rewrite <- Hd. apply told_get.
    - cbn. eexists. f_equal. f_equal. f_equal.
      apply (dmem_In str_eq_dec). apply (dget_Some_key str_eq_dec (sv_contexts s)). eauto.
  Qed.

  Lemma origin_proof h s rs g key :
    acts_run h new_service = Some (s, rs) ->
    exists r, act_step s (Get g key) = Some (s, AGot r) /\
    (told None key r \/
     exists i rq ctx, guid i = g /\ nth_error (requests h) i = Some rq /\
       snd (serve run missing g rq) = Some ctx /\ told (Some ctx) key r).
  Proof.
    intros H. destruct (inv_contexts _ _ _ H) as [_ [A _]]. eexists. split; [reflexivity|].
    pose proof (told_get (sv_contexts s) g key) as T.
    destruct (dget str_eq_dec (sv_contexts s) g) as [ctx|] eqn:D; [right|left; exact T].
    destruct (A g ctx D) as [i [rq [c [Hi [Hr [_ [_ [Hs _]]]]]]]]. exists i, rq, ctx.
    split; [assumption|]. split; [assumption|]. split; [|assumption]. subst g. rewrite serve_pipeline, Hs. reflexivity.
  Qed.

  Lemma past_remains h2 s s' r i c : acts_run h2 s = Some (s', r) -> nth_error (sv_conns s) i = Some c -> past c ->
    exists c', nth_error (sv_conns s') i = Some c' /\ past c'.
  Proof.
    revert s s' r c. induction h2 as [|a h2 IH]; intros s s' r c H Ec Hp; cbn in H.
    - injection H as <- <-. eauto.
    - destruct (act_step s a) as [[s1 x]|] eqn:E; [|discriminate].
      destruct (acts_run h2 s1) as [[s2 xs]|] eqn:E2; [|discriminate]. injection H as <- <-.
      destruct (concerns i a) eqn:Hc.
      + destruct (proj1 (act_step_local _ _ _ _ i E) Hc) as [c0 [c' [E0 [Hl E']]]].
        assert (c0 = c) by congruence. subst c0. eapply IH; eauto. eapply past_stays; eauto.
      + eapply IH; eauto. eapply (proj2 (act_step_local _ _ _ _ i E) Hc); eauto.
  Qed.

  (* once an execution is past its insertion, a missing entry stays missing *)
  Lemma missing_remains h2 s s' r i c : acts_run h2 s = Some (s', r) -> nth_error (sv_conns s) i = Some c -> past c ->
    NoDup (dkeys (sv_contexts s)) ->
    dget str_eq_dec (sv_contexts s) (guid i) = None -> dget str_eq_dec (sv_contexts s') (guid i) = None.
  Proof.
    revert s s' r c. induction h2 as [|a h2 IH]; intros s s' r c H Ec Hp N D; cbn in H.
    - injection H as <- <-. exact D.
    - destruct (act_step s a) as [[s1 x]|] eqn:E; [|discriminate].
      destruct (acts_run h2 s1) as [[s2 xs]|] eqn:E2; [|discriminate]. injection H as <- <-.
      assert (X : exists c', nth_error (sv_conns s1) i = Some c' /\ past c').
      { apply (past_remains [a] s s1 [x] i c); auto. cbn. rewrite E. reflexivity. }
      destruct X as [c' [Ec' Hp']].
      assert (T : NoDup (dkeys (sv_contexts s1)) /\ dget str_eq_dec (sv_contexts s1) (guid i) = None).
      { destruct a as [rq|j|j|j|g k|g]; cbn in E.
        - destruct (pipeline_of rq). injection E as <- <-. auto.
        - destruct (nth_error (sv_conns s) j) as [cj|] eqn:Hc; [|discriminate].
          destruct (work j cj (sv_contexts s)) as [[c1 ctxs]|] eqn:W; [|discriminate]. injection E as <- <-. cbn [sv_contexts].
          unfold SvcModel.work in W. destruct (c_phase cj) as [[|m todo] [ctx|e|]|f|] eqn:Ph; try discriminate W;
            try (injection W as <- <-; auto; fail);
            try (destruct (c_open cj); [destruct (length (c_queue cj) <? channel_capacity)|]; try discriminate W; injection W as <- <-; auto; fail).
          injection W as <- <-. split; [apply dset_NoDup, N|].
          rewrite dget_dset_other; [exact D|]. intros e. apply guid_inj in e. subst j.
          assert (cj = c) by congruence. subst cj. unfold past in Hp. rewrite Ph in Hp. contradiction.
        - destruct (nth_error (sv_conns s) j) as [[p [|m q] [] gt]|]; try discriminate. injection E as <- <-. auto.
        - destruct (nth_error (sv_conns s) j) as [[p q [] gt]|]; try discriminate. injection E as <- <-. auto.
        - injection E as <- <-. auto.
        - injection E as <- <-. cbn. split; [apply ddel_NoDup, N|]. rewrite dget_ddel by assumption.
          destruct (str_eq_dec g (guid i)); auto. }
      destruct T as [N' D']. eapply IH; eauto.
  Qed.

  Lemma drop_proof h1 h2 g s a1 a2 :
    acts_run (h1 ++ Drop g :: h2) new_service = Some (s, a1 ++ ADropped true :: a2) -> length a1 = length h1 ->
    (exists i rq ctx, guid i = g /\ nth_error (requests h1) i = Some rq /\ snd (serve run missing g rq) = Some ctx) /\
    (forall key, exists r, act_step s (Get g key) = Some (s, AGot r) /\ told None key r) /\
    (exists s', act_step s (Drop g) = Some (s', ADropped false)).
  Proof.
    intros H L. rewrite acts_run_app in H.
    destruct (acts_run h1 new_service) as [[s1 r1]|] eqn:E1; [|discriminate]. cbn in H.
    destruct (acts_run h2 (mkService (sv_conns s1) (ddel str_eq_dec (sv_contexts s1) g))) as [[s2 r2]|] eqn:E2; [|discriminate].
    injection H as <- H. pose proof (acts_run_length _ _ _ _ E1) as L1.
    assert (r1 = a1 /\ dmem str_eq_dec (sv_contexts s1) g = true) as [-> Hm].
    { assert (Z : forall (x y u v : list answer) p q, length x = length u -> x ++ p :: y = u ++ q :: v -> x = u /\ p = q).
      { induction x as [|e x IH]; intros y [|e' u] v p q Hl He; cbn in *; try discriminate.
        - injection He as -> _. auto.
        - injection He as -> He. injection Hl as Hl. destruct (IH _ _ _ _ _ Hl He) as [-> ->]. auto. }
      destruct (Z _ _ _ _ _ _ (eq_trans L1 (eq_sym L)) H) as [-> Ha]. injection Ha as Ha. auto. }
    apply (dmem_In str_eq_dec) in Hm.
    destruct (dget str_eq_dec (sv_contexts s1) g) as [ctx|] eqn:D.
    2:{ apply (dget_None str_eq_dec) in D. contradiction. }
    destruct (inv_contexts _ _ _ E1) as [N [A _]]. destruct (A g ctx D) as [i [rq [c [Hi [Hr [Hc [Hp [Hs _]]]]]]]].
    assert (D2 : dget str_eq_dec (sv_contexts s2) g = None).
    { subst g. eapply missing_remains; [exact E2|exact Hc|exact Hp|apply ddel_NoDup, N|].
      cbn. rewrite dget_ddel by assumption. destruct (str_eq_dec (guid i) (guid i)); [reflexivity|contradiction]. }
    split; [|split].
    - exists i, rq, ctx. split; [assumption|]. split; [assumption|]. subst g. rewrite serve_pipeline, Hs. reflexivity.
    - intros key. eexists. split; [reflexivity|]. rewrite <- D2. apply told_get.
    - cbn. eexists. f_equal. f_equal. f_equal. destruct (dmem str_eq_dec (sv_contexts s2) g) eqn:M; [|reflexivity].
      apply (dmem_In str_eq_dec) in M. apply (dget_None str_eq_dec) in D2. contradiction.
  Qed.

  (** ** Progress *)

  Definition remaining (c : conn) : nat :=
    match c_phase c with Running todo _ => 2 * (length todo + 2) | Announcing _ => 2 | Ended => 0 end + length (c_queue c).

  Lemma advance s i c : nth_error (sv_conns s) i = Some c -> (c_open c = false -> c_queue c = []) ->
    c_phase c <> Ended \/ c_queue c <> [] ->
    exists a s' r c', (a = Work i \/ a = Receive i) /\ act_step s a = Some (s', r) /\
      nth_error (sv_conns s') i = Some c' /\ remaining c' < remaining c.
  Proof.
    intros E Hq Hcase. destruct c as [p q o gt]; cbn [c_phase c_queue c_open] in *.
    destruct (c_phase (mkConn p q o gt)) as [todo st|f|] eqn:Ph; cbn in Ph; subst p.
    - destruct todo as [|m todo].
      + exists (Work i). cbn [SvcModel.act_step]. rewrite E. unfold SvcModel.work; cbn [c_phase].
        destruct st; (eexists _, _, _; split; [now left|split; [reflexivity|split; [eapply set_nth_same, E|unfold remaining; cbn; lia]]]).
      + destruct o.
        * destruct q as [|x q].
          -- exists (Work i). cbn [SvcModel.act_step]. rewrite E. unfold SvcModel.work; cbn [c_phase c_open c_queue].
             cbn [length]. change (0 <? channel_capacity) with true. cbn iota.
             eexists _, _, _. split; [now left|]. split; [reflexivity|]. split; [eapply set_nth_same, E|]. unfold remaining; cbn; lia.
          -- exists (Receive i). cbn. rewrite E. eexists _, _, _. split; [now right|]. split; [reflexivity|].
             split; [eapply set_nth_same, E|]. unfold remaining; cbn; lia.
        * rewrite (Hq eq_refl) in *. exists (Work i). cbn [SvcModel.act_step]. rewrite E. unfold SvcModel.work; cbn [c_phase c_open].
          eexists _, _, _. split; [now left|]. split; [reflexivity|]. split; [eapply set_nth_same, E|].
          unfold remaining; destruct m; cbn; lia.
    - destruct o.
      + destruct q as [|x q].
        * exists (Work i). cbn [SvcModel.act_step]. rewrite E. unfold SvcModel.work; cbn [c_phase c_open c_queue].
          cbn [length]. change (0 <? channel_capacity) with true. cbn iota.
          eexists _, _, _. split; [now left|]. split; [reflexivity|]. split; [eapply set_nth_same, E|]. unfold remaining; cbn; lia.
        * exists (Receive i). cbn. rewrite E. eexists _, _, _. split; [now right|]. split; [reflexivity|].
          split; [eapply set_nth_same, E|]. unfold remaining; cbn; lia.
      + rewrite (Hq eq_refl) in *. exists (Work i). cbn [SvcModel.act_step]. rewrite E. unfold SvcModel.work; cbn [c_phase c_open].
        eexists _, _, _. split; [now left|]. split; [reflexivity|]. split; [eapply set_nth_same, E|]. unfold remaining; cbn; lia.
    - destruct Hcase as [Hc|Hc]; [congruence|]. destruct q as [|x q]; [congruence|].
      destruct o; [|specialize (Hq eq_refl); discriminate].
      exists (Receive i). cbn. rewrite E. eexists _, _, _. split; [now right|]. split; [reflexivity|].
      split; [eapply set_nth_same, E|]. unfold remaining; cbn; lia.
  Qed.

  Lemma finish_proof h s rs i rq :
    acts_run h new_service = Some (s, rs) -> nth_error (requests h) i = Some rq ->
    exists h' s' rs', Forall (fun a => a = Work i \/ a = Receive i) h' /\
      acts_run (h ++ h') new_service = Some (s', rs') /\ over s' i /\
      (~ In (Close i) h -> received i (h ++ h') rs' = fst (serve run missing (guid i) rq)).
  Proof.
    intros H Hr.
    assert (G : exists h' s' rs' c, Forall (fun a => a = Work i \/ a = Receive i) h' /\
      acts_run (h ++ h') new_service = Some (s', rs') /\ nth_error (sv_conns s') i = Some c /\ c_phase c = Ended /\ c_queue c = []).
    { destruct (inv_conns _ _ _ H) as [_ I0]. destruct (I0 i rq Hr) as [c [Ec _]]. clear I0.
      remember (remaining c) as n eqn:En. revert h s rs c H Hr Ec En.
      induction n as [n IH] using (well_founded_induction lt_wf). intros h s rs c H Hr Ec En. subst n.
      destruct (inv_conns _ _ _ H) as [_ I0]. destruct (I0 i rq Hr) as [c0 [Ec0 [Ci _]]].
      assert (c0 = c) by congruence. subst c0. destruct Ci as [_ [_ [Hq _]]].
      assert (Hd : (c_phase c = Ended /\ c_queue c = []) \/ (c_phase c <> Ended \/ c_queue c <> [])).
      { destruct (c_phase c); [right; left; discriminate|right; left; discriminate|].
        destruct (c_queue c); [left; auto|right; right; discriminate]. }
      destruct Hd as [[Hd1 Hd2]|Hd].
      - exists [], s, rs, c. rewrite app_nil_r. auto.
      - destruct (advance s i c Ec Hq Hd) as [a [s1 [r [c1 [Ha [Es [Ec1 Hlt]]]]]]].
        assert (H1 : acts_run (h ++ [a]) new_service = Some (s1, rs ++ [r])) by (rewrite acts_run_snoc, H, Es; reflexivity).
        assert (Hr1 : nth_error (requests (h ++ [a])) i = Some rq).
        { rewrite requests_app, nth_error_app1; [assumption|]. apply nth_error_Some. congruence. }
        destruct (IH (remaining c1) Hlt _ _ _ c1 H1 Hr1 Ec1 eq_refl) as [h' [s' [rs' [c' [F [R X]]]]]].
        exists (a :: h'), s', rs', c'. rewrite <- app_assoc in R. split; [constructor; assumption|]. split; [exact R|exact X]. }
    destruct G as [h' [s' [rs' [c [F [R [Ec [Ph Hq]]]]]]]]. exists h', s', rs'. split; [assumption|]. split; [assumption|].
    split; [exists c; auto|]. intros Hcl.
    assert (Hr' : nth_error (requests (h ++ h')) i = Some rq).
    { rewrite requests_app, nth_error_app1; [assumption|]. apply nth_error_Some. congruence. }
    apply (stream_proof _ _ _ _ _ R Hr').
    - exists c; auto.
    - intros Hi. apply in_app_iff in Hi. destruct Hi as [Hi|Hi]; [contradiction|].
      rewrite Forall_forall in F. destruct (F _ Hi); discriminate.
    - cbn. rewrite Ec. destruct c as [p [|m q] o gt]; cbn in Hq; [reflexivity|discriminate].
  Qed.

  Lemma no_deadlock_proof h s rs i rq :
    acts_run h new_service = Some (s, rs) -> nth_error (requests h) i = Some rq ->
    over s i \/ act_step s (Work i) <> None \/ act_step s (Receive i) <> None.
  Proof.
    intros H Hr. destruct (inv_conns _ _ _ H) as [_ I0]. destruct (I0 i rq Hr) as [c [Ec [[_ [_ [Hq _]]] _]]].
    destruct (c_phase c) eqn:Ph.
    3:{ left. exists c. auto. }
    all: right; destruct (advance s i c Ec Hq) as [a [s1 [r [c1 [[-> | ->] [Es _]]]]]];
      [left; rewrite Ph; discriminate|left; congruence|right; congruence].
  Qed.

  Lemma work_bound_proof h s rs i rq :
    acts_run h new_service = Some (s, rs) -> nth_error (requests h) i = Some rq ->
    length (filter (fun a => match a with Work j => i =? j | _ => false end) h) <= length (fst (serve run missing (guid i) rq)) + 2.
  Proof.
    intros H Hr. destruct (inv_conns _ _ _ H) as [_ I0]. destruct (I0 i rq Hr) as [c [_ [[_ [_ [_ Ci]]] _]]].
    change (works i h <= length (fst (serve run missing (guid i) rq)) + 2).
    rewrite serve_pipeline. cbn [fst]. rewrite app_length.
    destruct (c_phase c); destruct Ci as [Ci _]; lia.
  Qed.

  (** ** Isolation *)

  Fixpoint lrun (i : nat) (c : conn) (l : list act) : option conn :=
    match l with [] => Some c | a :: l' => match lstep i c a with Some c' => lrun i c' l' | None => None end end.

  Lemma lrun_snoc i c l a : lrun i c (l ++ [a]) = match lrun i c l with Some c' => lstep i c' a | None => None end.
  Proof.
    revert c. induction l as [|b l IH]; intros c; cbn; [destruct (lstep i c a); reflexivity|].
    destruct (lstep i c b); auto.
  Qed.

  Lemma local_run h s rs i rq : acts_run h new_service = Some (s, rs) -> nth_error (requests h) i = Some rq ->
    nth_error (sv_conns s) i =
    lrun i (mkConn (Running (fst (pipeline_of rq)) (snd (pipeline_of rq))) [] true []) (filter (concerns i) h).
  Proof.
    revert s rs. induction h as [|a h IH] using rev_ind; intros s rs H Hr; [destruct i; discriminate|].
    rewrite acts_run_snoc in H. destruct (acts_run h new_service) as [[s1 r1]|] eqn:E; [|discriminate].
    destruct (act_step s1 a) as [[s2 r]|] eqn:E2; [|discriminate]. injection H as <- <-.
    destruct (inv_conns _ _ _ E) as [L _].
    rewrite filter_app. cbn [filter]. rewrite requests_app in Hr.
    destruct (lt_dec i (length (requests h))) as [Hi|Hi].
    - rewrite nth_error_app1 in Hr by assumption. specialize (IH _ _ eq_refl Hr).
      destruct (concerns i a) eqn:Hc.
      + destruct (proj1 (act_step_local _ _ _ _ i E2) Hc) as [c0 [c' [E0 [Hl E']]]].
        rewrite lrun_snoc, <- IH, E0, Hl. exact E'.
      + rewrite app_nil_r, <- IH. destruct (nth_error (sv_conns s1) i) as [c|] eqn:Ec.
        * apply (proj2 (act_step_local _ _ _ _ i E2) Hc _ Ec).
        * apply nth_error_None in Ec. lia.
    - rewrite nth_error_app2 in Hr by lia. destruct a as [rq'|j|j|j|g k|g]; cbn in Hr; try (destruct (i - length (requests h)); discriminate).
      assert (i = length (requests h)) as ->.
      { destruct (i - length (requests h)) as [|k] eqn:Ek; [lia|]. cbn in Hr. destruct k; discriminate. }
      rewrite Nat.sub_diag in Hr. cbn in Hr. injection Hr as ->.
      cbn [concerns]. rewrite app_nil_r.
      assert (F : filter (concerns (length (requests h))) h = []).
      { assert (Z : forall x, In x h -> concerns (length (requests h)) x = false).
        { intros x Hx. destruct (concerns (length (requests h)) x) eqn:Fx; [|reflexivity]. exfalso.
          apply in_split in Hx. destruct Hx as [h1 [h2 Eh]]. rewrite Eh in E.
          rewrite acts_run_app in E. destruct (acts_run h1 new_service) as [[sa ra]|]; [|discriminate].
          cbn in E. destruct (act_step sa x) as [[sb rb]|] eqn:Ex; [|discriminate].
          destruct (acts_run h2 sb) as [[sc rc]|] eqn:Ec; [|discriminate]. injection E as <- <-.
          destruct (proj1 (act_step_local _ _ _ _ _ Ex) Fx) as [c0 [c' [_ [_ E']]]].
          assert (mono : forall l s s' r, acts_run l s = Some (s', r) -> length (sv_conns s) <= length (sv_conns s')).
          { induction l as [|y l IHl]; intros u u' w Hu; cbn in Hu; [injection Hu as <- <-; lia|].
            destruct (act_step u y) as [[u1 w1]|] eqn:Eu; [|discriminate].
            destruct (acts_run l u1) as [[u2 w2]|] eqn:Eu2; [|discriminate]. injection Hu as <- <-.
            pose proof (act_step_length _ _ _ _ Eu). pose proof (IHl _ _ _ Eu2). lia. }
          pose proof (mono _ _ _ _ Ec).
          assert (length (requests h) < length (sv_conns sb)) by (apply nth_error_Some; congruence).
          lia. }
        revert Z. generalize (concerns (length (requests h))). intros f Z. clear -Z. induction h as [|x l IHl]; [reflexivity|].
        cbn. rewrite Z by now left. apply IHl. intros y Hy. apply Z. now right. }
      rewrite F. cbn in E2. destruct (pipeline_of rq) as [msgs st] eqn:Ep. injection E2 as <- <-. cbn [sv_conns].
      rewrite nth_error_app2 by lia. rewrite L, Nat.sub_diag. reflexivity.
  Qed.

  Lemma isolation_proof h1 h2 s1 s2 r1 r2 i rq :
    acts_run h1 new_service = Some (s1, r1) -> acts_run h2 new_service = Some (s2, r2) ->
    nth_error (requests h1) i = Some rq -> nth_error (requests h2) i = Some rq ->
    filter (concerns i) h1 = filter (concerns i) h2 ->
    received i h1 r1 = received i h2 r2 /\ (over s1 i <-> over s2 i) /\
    (forall a, concerns i a = true -> (act_step s1 a = None <-> act_step s2 a = None)).
  Proof.
    intros H1 H2 R1 R2 F. pose proof (local_run _ _ _ _ _ H1 R1) as L1. pose proof (local_run _ _ _ _ _ H2 R2) as L2.
    rewrite F in L1. rewrite <- L2 in L1. clear L2.
    destruct (inv_conns _ _ _ H1) as [_ I1]. destruct (I1 i rq R1) as [c1 [E1 [_ G1]]].
    destruct (inv_conns _ _ _ H2) as [_ I2]. destruct (I2 i rq R2) as [c2 [E2 [_ G2]]].
    assert (c1 = c2) by congruence. subst c2. split; [congruence|]. split; [unfold over; rewrite L1; tauto|].
    intros a Hc. destruct a as [rq'|j|j|j|g k|g]; cbn in Hc; try discriminate; apply Nat.eqb_eq in Hc; subst j; cbn; rewrite E1, E2.
    - pose proof (work_conn i c1 (sv_contexts s1)) as W1. pose proof (work_conn i c1 (sv_contexts s2)) as W2.
      rewrite <- W2 in W1. destruct (work i c1 (sv_contexts s1)) as [[? ?]|]; destruct (work i c1 (sv_contexts s2)) as [[? ?]|]; cbn in W1;
        try discriminate; split; intros; (discriminate || reflexivity).
    - destruct c1 as [p [|m q] [] gt]; split; intros; (discriminate || reflexivity).
    - destruct c1 as [p q [] gt]; split; intros; (discriminate || reflexivity).
  Qed.

  (** ** Contexts left behind *)

  Lemma app_cut {A} (a b c d : list A) : a ++ b = c ++ d -> length a <= length c -> exists r, c = a ++ r /\ b = r ++ d.
  Proof.
    revert c. induction a as [|x a IH]; intros [|y c] E L; cbn in *.
    - exists []. auto.
    - exists (y :: c). auto.
    - lia.
    - injection E as -> E. destruct (IH c E ltac:(lia)) as [r [-> ->]]. exists r. auto.
  Qed.

  Lemma left_behind_proof h s rs i rq ctx :
    acts_run h new_service = Some (s, rs) -> nth_error (requests h) i = Some rq -> over s i ->
    snd (serve run missing (guid i) rq) = Some ctx -> ~ In (Drop (guid i)) h ->
    (forall pre text post, fst (serve run missing (guid i) rq) <> received i h rs ++ pre ++ MLog text :: post) ->
    forall key, exists r, act_step s (Get (guid i) key) = Some (s, AGot r) /\ told (Some ctx) key r.
  Proof.
    intros H Hr [c [Ec Ph]] Hs Hd Hlog key. eexists. split; [reflexivity|].
    destruct (inv_conns _ _ _ H) as [_ I0]. destruct (I0 i rq Hr) as [c0 [E0 [_ Eg]]]. assert (c0 = c) by congruence. subst c0.
    destruct (inv_contexts _ _ _ H) as [_ [_ B]].
    assert (Fin : snd (pipeline_of rq) = Done ctx).
    { rewrite serve_pipeline in Hs. destruct (snd (pipeline_of rq)); cbn in Hs; congruence. }
    destruct (B i rq c ctx Hr Ec) as [D|[D|[_ [pre [t [post [E [x Hx]]]]]]]]; [unfold past; rewrite Ph; exact I|assumption| | |].
    - rewrite <- D. apply told_get.
    - contradiction.
    - exfalso. apply (Hlog x t (post ++ match final_of i (Done ctx) with Some f => [MFinal f] | None => [] end)).
      rewrite serve_pipeline, Fin. cbn [fst]. rewrite E, Hx, Eg, <- !app_assoc. reflexivity.
  Qed.

  Lemma not_kept_proof h s rs i rq r text post :
    acts_run h new_service = Some (s, rs) -> nth_error (requests h) i = Some rq ->
    fst (serve run missing (guid i) rq) = received i h rs ++ r ++ MLog text :: post -> 4 <= length r ->
    forall key, exists x, act_step s (Get (guid i) key) = Some (s, AGot x) /\ told None key x.
  Proof.
    intros H Hr Hst Hl key. eexists. split; [reflexivity|].
    pose proof (told_get (sv_contexts s) (guid i) key) as T.
    destruct (dget str_eq_dec (sv_contexts s) (guid i)) as [ctx|] eqn:D; [exfalso|exact T].
    destruct (inv_contexts _ _ _ H) as [_ [A _]].
    destruct (A _ _ D) as [j [rq' [c [Hj [Hr' [Ec [_ [Fin [a [b [Em [La Hq]]]]]]]]]]]].
    apply guid_inj in Hj. subst j. assert (rq' = rq) by congruence. subst rq'.
    destruct (inv_conns _ _ _ H) as [_ I0]. destruct (I0 i rq Hr) as [c0 [E0 [_ Eg]]]. assert (c0 = c) by congruence. subst c0.
    rewrite serve_pipeline, Fin in Hst. cbn in Hst. rewrite app_nil_r in Em.
    rewrite Em, <- app_assoc in Hst. rewrite (app_assoc (received i h rs)) in Hst.
    apply app_cut in Hst; [|rewrite app_length, <- Eg; lia].
    destruct Hst as [y [_ Hb]].
    assert (Hin : In (MLog text) (b ++ [MFinal (FSuccess (guid i))])) by (rewrite Hb; apply in_or_app; right; now left).
    apply in_app_iff in Hin. destruct Hin as [Hin|[Hin|[]]]; [exact (Hq text Hin)|discriminate].
  Qed.
End Svc.
