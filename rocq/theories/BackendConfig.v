(** Proofs for C51: the configurations the backend's parts read. *)
From Coq Require Import SpecFloat Lia.
From Verif Require Import Py PyFacts WireModel ConstModel ClientModel ClientSpec ClientProofs
  BackendModel FloatFacts BackendSpec BackendProofs.

(** * Configurations *)

Lemma rinside_single r q : rinside r [q] <->
  r = q \/ exists name c k inner, config_of q = Some (name, c) /\ In (k, VPipeline inner) c /\ rinside r inner.
Proof.
  split.
  - intros H. inversion H as [l Hi|q' l name c k inner Hi Hc Hk Hr]; subst.
    + destruct Hi as [->|[]]. left. reflexivity.
    + destruct Hi as [->|[]]. right. exists name, c, k, inner. auto.
  - intros [->|[name [c [k [inner [Hc [Hk Hr]]]]]]].
    + apply rinside_here. left. reflexivity.
    + eapply rinside_deep; [left; reflexivity|exact Hc|exact Hk|exact Hr].
Qed.
Lemma rinside_down r l : rinside r l -> exists q, In q l /\ rinside r [q].
Proof.
  intros H. inversion H as [l' Hi|q l' name c k inner Hi Hc Hk Hr]; subst.
  - exists r. split; [exact Hi|]. apply rinside_here. left. reflexivity.
  - exists q. split; [exact Hi|]. eapply rinside_deep; [left; reflexivity|eassumption..].
Qed.

Definition typed1 (kv : pystr * rvalue) : bool :=
  existsb (fun e => str_eqb (fst e) (fst kv) && (if rtype_eq_dec (snd e) (value_type (snd kv)) then true else false))
    backend_keys.
Lemma typed1_In kv : typed1 kv = true -> In (fst kv, value_type (snd kv)) backend_keys.
Proof.
  intros H. apply existsb_exists in H. destruct H as [[k t] [Hi H]]. cbn [fst snd] in H.
  apply andb_prop in H. destruct H as [Hk Ht]. unfold str_eqb in Hk.
  destruct (str_eq_dec k (fst kv)); [|discriminate]. destruct (rtype_eq_dec t _); [|discriminate]. subst. exact Hi.
Qed.
Lemma typed_all c : forallb typed1 c = true -> forall k v, In (k, v) c -> In (k, value_type v) backend_keys.
Proof. intros H k v Hi. rewrite forallb_forall in H. exact (typed1_In (k, v) (H (k, v) Hi)). Qed.
Lemma find_part_In name : find_part name = true -> In name backend_parts.
Proof.
  intros H. apply existsb_exists in H. destruct H as [n [Hi H]]. unfold str_eqb in H.
  destruct (str_eq_dec name n); [|discriminate]. subst. exact Hi.
Qed.

Lemma configured_default name c :
  find_part name = true -> forallb typed1 c = true -> part_config name c = Ok tt -> configured (RDefault name c).
Proof.
  intros Hn Hc Hp. split; [intros; discriminate|]. intros name' c' H. injection H as <- <-.
  split; [apply find_part_In, Hn|]. split; [apply typed_all, Hc|exact Hp].
Qed.
Lemma configured_get keys u name c :
  forallb known keys = true -> find_part name = true -> forallb typed1 c = true -> part_config name c = Ok tt ->
  configured (RGet keys u (Some (name, c))).
Proof.
  intros Hk Hn Hc Hp. split.
  - intros keys' u' before H. injection H as <- <- <-. intros k Hi. rewrite forallb_forall in Hk. specialize (Hk k Hi).
    unfold known, find_key in Hk. destruct (dget str_eq_dec backend_keys k) eqn:E; [|discriminate].
    apply dget_In in E. apply in_map_iff. eexists; split; [|exact E]. reflexivity.
  - intros name' c' H. injection H as <- <-. split; [apply find_part_In, Hn|]. split; [apply typed_all, Hc|exact Hp].
Qed.
Lemma configured_simple k u : known k = true -> configured (RGet [k] u None).
Proof.
  intros Hk. split; [|intros ? ? H; discriminate H].
  intros keys' u' before H. injection H as <- <- <-. intros k' [<-|[]].
  unfold known, find_key in Hk. destruct (dget str_eq_dec backend_keys k) eqn:E; [|discriminate].
  apply dget_In in E. apply in_map_iff. eexists; split; [|exact E]. reflexivity.
Qed.

Ltac conf := first
  [ apply configured_default; vm_compute; reflexivity
  | apply configured_get; vm_compute; reflexivity
  | apply configured_simple; vm_compute; reflexivity ].

Lemma configured_several classes kind narrow level s max_length adj n m f u :
  ~ (tandem_kind kind /\ classes <> []) ->
  configured (wanted_leaf u (LSeveralLevels classes kind narrow level s max_length adj n m f)).
Proof.
  intros Hk. cbn [wanted_leaf]. apply configured_default; [vm_compute; reflexivity|vm_compute; reflexivity|].
  match goal with |- part_config _ ?c = _ => set (cfg := c) end.
  assert (E : part_config (str "DiscoverActivitiesForSeveralLevels") cfg =
     bind (mapM (fun ic =>
                   let level := level_config cfg (Z.of_nat (fst ic)) (snd ic) in
                   bind (get_all level [str "adjusting_mode"]) (fun _ =>
                   bind (find_patterns_config level) (fun _ =>
                   get_all level [str "narrow_activities"; str "events_count"; str "min_activity_length";
                                  str "activity_in_trace_filter_kind"])))
                   (combine (seq 0 (length classes)) (rev classes))) (fun _ => Ok tt)) by reflexivity.
  rewrite E. destruct classes as [|c0 classes]; [reflexivity|].
  rewrite (mapM_ok _ (fun _ => tt)); [reflexivity|].
  intros [i class] _. cbn [fst snd]. generalize (Z.of_nat i). intros z.
  destruct kind; try solve [vm_compute; reflexivity]; destruct Hk; (split; [|discriminate]); [left|right]; reflexivity.
Qed.

Lemma leaf_configured u l : leaf_ok l -> ~ hungry (PLeaf u l) -> forall r, rinside r [wanted_leaf u l] -> configured r.
Proof.
  intros Hok Hh r Hr. apply rinside_single in Hr. destruct Hr as [->|[name [c [k [inner [Hc [Hk Hr]]]]]]].
  - destruct l as [| | |classes kind narrow level s max_length adj n m f|kind s n level| | | |
        | [x1 x2 x3 x4 [x5|]] n m | [x1 x2 x3 x4 [x5|]] n | [x1 x2 x3 x4 [x5|]] n | n [x5|] x1
        | | | | | | | | | | | [| |] b | | | | | | | | | | | | | | [|] n [x5|] | [| |] s [x5|] | | | | | | | | b];
      try (destruct Hok; fail);
      lazymatch goal with
      | |- configured (wanted_leaf _ (LSeveralLevels _ _ _ _ _ _ _ _ _ _)) => apply configured_several; exact Hh
      | _ => cbn [wanted_leaf r_tandem r_repeats]; conf
      end.
  - destruct l; cbn [wanted_leaf config_of r_tandem r_repeats] in Hc; try discriminate Hc; injection Hc as <- <-;
    try solve [cbn in Hk; intuition discriminate];
    try solve [cbn in Hk; repeat (destruct Hk as [Hk|Hk]; [discriminate Hk|]);
               rewrite ?in_app_iff in Hk;
               repeat match goal with
                      | o : option pystr |- _ => destruct o
                      | o : common |- _ => destruct o as [? ? ? ? [?|]]
                      end; cbn in Hk; intuition discriminate].
    destruct Hk as [Hk|[]]. injection Hk as <- <-. apply rinside_down in Hr. destruct Hr as [q [Hq Hr]].
    apply rinside_single in Hr. destruct Hr as [->|[name [c [k [inner [Hc [Hk Hr]]]]]]].
    + destruct Hq as [<-|[<-|[]]]; [|conf]. destruct kind; cbn [r_repeats r_tandem]; conf.
    + exfalso. destruct Hq as [<-|[<-|[]]].
      * destruct kind; cbn in Hc; injection Hc as <- <-; cbn in Hk; intuition discriminate.
      * cbn in Hc; injection Hc as <- <-; cbn in Hk; intuition discriminate.
Qed.

Lemma parts_configured l :
  Forall (fun p => (forall q, inside q [p] -> part_ok q) -> (forall q, inside q [p] -> ~ hungry q) ->
            forall r, rinside r [wanted p] -> configured r) l ->
  (forall q, inside q l -> part_ok q) -> (forall q, inside q l -> ~ hungry q) ->
  forall r, rinside r (map wanted l) -> configured r.
Proof.
  intros IH Hok Hh r Hr. apply rinside_down in Hr. destruct Hr as [q [Hq Hr]].
  apply in_map_iff in Hq. destruct Hq as [p [<- Hp]]. rewrite Forall_forall in IH.
  apply (IH p Hp); [| |exact Hr]; intros q Hq; [apply Hok|apply Hh]; (eapply inside_up; [exact Hp|exact Hq]).
Qed.

Lemma part_configured p : (forall q, inside q [p] -> part_ok q) -> (forall q, inside q [p] -> ~ hungry q) ->
  forall r, rinside r [wanted p] -> configured r.
Proof.
  induction p as [u l|u c l IH|u c|u s n l IH|u c l IH|u l IH|] using part_ind2; intros Hok Hh r Hr;
    rewrite inside_split in Hok; rewrite inside_split in Hh; destruct Hok as [Hok Hoki]; destruct Hh as [Hh Hhi].
  - eapply leaf_configured; [exact Hok|exact Hh|exact Hr].
  - apply rinside_single in Hr. destruct Hr as [->|[name [cf [k [inner [Hc [Hk Hr]]]]]]].
    + cbn [wanted]. destruct c as [[x0|] x1 x2 x3 x4 x5 x6 x7 x8 x9 x10 x11]; cbn in Hh;
      destruct x1; try conf; destruct Hh; solve [left; reflexivity|right; reflexivity].
    + cbn [wanted config_of] in Hc. injection Hc as <- <-.
      assert (E : inner = map wanted l).
      { destruct c as [[x0|] x1 x2 x3 x4 x5 x6 x7 x8 x9 x10 x11]; cbn in Hk;
        repeat (destruct Hk as [Hk|Hk]; [first [discriminate Hk | injection Hk as _ <-; reflexivity]|]); destruct Hk. }
      subst inner. eapply parts_configured; [exact IH| | |exact Hr].
      * apply (Hoki l). constructor.
      * apply (Hhi l). constructor.
  - apply rinside_single in Hr. destruct Hr as [->|[name [cf [k [inner [Hc [Hk Hr]]]]]]].
    + cbn [wanted]. destruct c as [[x0|] x1 x2 x3 x4 x5 x6 x7 x8 x9 x10 x11]; cbn in Hh;
      destruct x1; try conf; destruct Hh; solve [left; reflexivity|right; reflexivity].
    + exfalso. cbn [wanted config_of] in Hc. injection Hc as <- <-.
      destruct c as [[x0|] x1 x2 x3 x4 x5 x6 x7 x8 x9 x10 x11]; cbn in Hk; intuition discriminate.
  - apply rinside_single in Hr. destruct Hr as [->|[name [cf [k [inner [Hc [Hk Hr]]]]]]].
    + cbn [wanted]. destruct s; conf.
    + cbn [wanted config_of] in Hc. injection Hc as <- <-.
      assert (E : inner = map wanted l).
      { cbn in Hk. repeat (destruct Hk as [Hk|Hk]; [first [discriminate Hk | injection Hk as _ <-; reflexivity]|]); destruct Hk. }
      subst inner. eapply parts_configured; [exact IH| | |exact Hr].
      * apply (Hoki l). constructor.
      * apply (Hhi l). constructor.
  - apply rinside_single in Hr. destruct Hr as [->|[name [cf [k [inner [Hc [Hk Hr]]]]]]].
    + cbn [wanted]. destruct c as [x1 x2 x3 x4 [x5|]]; conf.
    + cbn [wanted config_of] in Hc. injection Hc as <- <-.
      assert (E : inner = map wanted l).
      { destruct c as [x1 x2 x3 x4 [x5|]]; cbn in Hk;
        repeat (destruct Hk as [Hk|Hk]; [first [discriminate Hk | injection Hk as _ <-; reflexivity]|]); destruct Hk. }
      subst inner. eapply parts_configured; [exact IH| | |exact Hr].
      * apply (Hoki l). constructor.
      * apply (Hhi l). constructor.
  - destruct Hok.
  - destruct Hok.
Qed.

Lemma configured_proof parts g : pipeline_grpc parts = Ok g -> (forall p, inside p parts -> ~ hungry p) ->
  forall r, rinside r (map wanted parts) -> configured r.
Proof.
  intros H Hh. apply parts_configured; [|apply sendable_proof; eauto|exact Hh].
  apply Forall_forall. intros p _. apply part_configured.
Qed.

(** * Starving parts *)

Lemma until_panics u c after : tandem_kind (un_kind c) ->
  exists name cf, config_of (wanted (PUntil u c after)) = Some (name, cf) /\ part_config name cf = Err AssertionErr.
Proof.
  intros Hk. cbn [wanted config_of]. eexists _, _. split; [reflexivity|].
  destruct c as [[x0|] x1 x2 x3 x4 x5 x6 x7 x8 x9 x10 x11]; cbn in Hk; destruct Hk as [-> | ->];
  destruct after; vm_compute; reflexivity.
Qed.
Lemma several_panics u classes kind narrow level s max_length adj n m f :
  tandem_kind kind -> classes <> [] ->
  exists name cf, config_of (wanted_leaf u (LSeveralLevels classes kind narrow level s max_length adj n m f)) = Some (name, cf)
    /\ part_config name cf = Err AssertionErr.
Proof.
  intros Hk Hc. cbn [wanted_leaf config_of]. eexists _, _. split; [reflexivity|].
  match goal with |- part_config _ ?c = _ => set (cfg := c) end.
  assert (E : part_config (str "DiscoverActivitiesForSeveralLevels") cfg =
     bind (mapM (fun ic =>
                   let level := level_config cfg (Z.of_nat (fst ic)) (snd ic) in
                   bind (get_all level [str "adjusting_mode"]) (fun _ =>
                   bind (find_patterns_config level) (fun _ =>
                   get_all level [str "narrow_activities"; str "events_count"; str "min_activity_length";
                                  str "activity_in_trace_filter_kind"])))
                   (combine (seq 0 (length classes)) (rev classes))) (fun _ => Ok tt)) by reflexivity.
  rewrite E. clear E.
  assert (Hn : exists x xs, combine (seq 0 (length classes)) (rev classes) = x :: xs).
  { destruct classes as [|c0 classes]; [congruence|]. cbn [length seq]. destruct (rev (c0 :: classes)) as [|y ys] eqn:Er.
    - apply (f_equal (@length _)) in Er. rewrite rev_length in Er. discriminate.
    - cbn. eauto. }
  destruct Hn as [[i class] [xs ->]]. cbn [mapM fst snd]. generalize (Z.of_nat i). intros z.
  destruct Hk as [-> | ->]; vm_compute; reflexivity.
Qed.
