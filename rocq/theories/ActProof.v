(** * What the events of a test with user-defined actions say about its state; Expect() and
    Prepare(). *)
From Verif Require Export ActSpec.
From Verif Require Import ActRefine ActNotes ActScan ActExec TestLemmas TestProof EngineLemmas ExpectLemmas ExpectProof ExpectReport TraceSpec DeliveryProof.
From Coq Require Import Lia.

Section Proof.
Context {P : Params}.

(** ** The state after events *)

Lemma enabled_cons ev l : u_enabled (ev :: l) = match ev with VT (TvEnable n b) => [OptHandler n b] | _ => [] end ++ u_enabled l.
Proof. by destruct ev as [[]| | | | | | | |]. Qed.

Lemma scan_reads c st l st' : UScan c st l st' ->
  ts_clock st' = u_clock_at (ts_clock st) l /\ ts_opts st' = ts_opts st ++ u_enabled l /\
  ts_bound st' = bd_after (ts_bound st) l /\ ts_icpt st' = u_interceptor (ts_icpt st) l /\
  ts_compare st' = ts_compare st /\ ts_next st <= ts_next st'.
Proof.
  induction 1 as [st|st ev st' l st'' Hs HS IH]; [cbn; by rewrite app_nil_r|].
  rewrite enabled_cons. inversion Hs; subst; cbn in IH |- *; try exact IH; destruct IH as (H1 & H2 & H3 & H4 & H5 & H6); split_and!; try done; try lia.
  by rewrite H2, <- app_assoc.
Qed.

Lemma scan_failed c st l st' : UScan c st l st' -> (ts_failed st' = true <-> ts_failed st = true \/ u_failed l).
Proof.
  induction 1 as [st|st ev st' l st'' Hs HS IH].
  - split; [by left|]. intros [H|(ev & H & _)]; [done|inversion H].
  - rewrite IH. assert (Hx : u_failed (ev :: l) <-> u_failed [ev] \/ u_failed l).
    { split.
      - intros (x & Hx & Hf). apply elem_of_cons in Hx as [->|Hx]; [left|right]; eexists; (split; [|exact Hf]); [by left|done].
      - intros [(x & Hx & Hf)|(x & Hx & Hf)]; exists x; (split; [|exact Hf]); [|by right]. apply elem_of_list_singleton in Hx as ->. by left. }
    rewrite Hx.
    assert (H1 : ts_failed st' = true <-> ts_failed st = true \/ u_failed [ev]).
    { assert (Hn : forall ev, match ev with VT (TvFatal _) | VT TvFailNow => False | _ => True end -> ~ u_failed [ev]).
      { intros ev' H (x & H2 & H3). apply elem_of_list_singleton in H2 as ->. by destruct ev' as [[]| | | | | | | |]. }
      inversion Hs; subst; cbn; try (split; [by left|intros [?|Hf]; [done|exfalso; revert Hf; by apply Hn]]).
      - split; [|done]. intros _. right. eexists. split; [by left|done].
      - split; [|done]. intros _. right. eexists. split; [by left|done]. }
    rewrite H1. tauto.
Qed.

Lemma u_ops_app l l' : u_ops (l ++ l') = u_ops l ++ u_ops l'.
Proof. apply omap_app. Qed.
Lemma u_evs_app l l' : u_evs (l ++ l') = u_evs l ++ u_evs l'.
Proof. unfold u_evs. by rewrite map_app, concat_app. Qed.
Lemma u_ops_cons ev l : u_ops (ev :: l) = u_ops [ev] ++ u_ops l.
Proof. apply (u_ops_app [ev]). Qed.

Lemma scan_history c st l st' : UScan c st l st' -> Forall (op_ok c) (u_ops l) /\ run_ops c (u_ops l) (ts_eng st) = (ts_eng st', u_evs l, true).
Proof.
  induction 1 as [st|st ev st' l st'' Hs HS [IH1 IH2]]; [by repeat constructor|].
  rewrite u_ops_cons. unfold u_evs. cbn [map concat]. fold (u_evs l).
  inversion Hs; subst; cbn in IH2; try (by split); cbn [u_ops omap list_omap app].
  - split; [by constructor|]. cbn [run_ops]. match goal with H : run_op _ _ _ = _ |- _ => rewrite H end. rewrite IH2. by destruct r.
  - split; [by constructor|]. cbn [run_ops run_op]. rewrite IH2. done.
  - split; [by constructor|]. cbn [run_ops run_op]. rewrite IH2. done.
Qed.

(** ** A test from its beginning *)

Lemma begin_more app u wall topts :
  ts_icpt (begin app u wall topts) = first_interceptor topts /\ ts_compare (begin app u wall topts) = given_comparator topts.
Proof.
  unfold begin. set (st0 := mkTS _ _ _ _ _ _ _ _ _ _).
  assert (H : ts_icpt (foldl apply_topt st0 topts) = match first_interceptor topts with Some i => Some i | None => ts_icpt st0 end /\
    ts_compare (foldl apply_topt st0 topts) = match given_comparator topts with Some i => Some i | None => ts_compare st0 end).
  { generalize st0. induction topts as [|o topts IH]; intros st1; [done|]. cbn [foldl]. destruct (IH (apply_topt st1 o)) as [H1 H2].
    rewrite H1, H2. unfold first_interceptor, given_comparator. destruct o; cbn -[last]; try done; rewrite last_cons;
      match goal with |- context [last ?l] => by destruct (last l) end. }
  destruct H as [H1 H2]. cbn. rewrite H1, H2. cbn. by destruct (first_interceptor topts), (given_comparator topts).
Qed.

Section Test.
Context (E : TEnv) (app : list Handler) (u : U) (wall : Z) (topts : list TOpt) (p : UProg) (st : TState) (evs : list UEv) (r : AOut).
Hypothesis Ht : utesting E app u wall topts p st evs r.
Notation c := (test_config app).
Notation st0 := (begin app u wall topts).

Lemma utest_accepted : (r <> AHalt -> UScan c st0 evs st) /\ (r = AHalt -> UHalts c st0 evs).
Proof. destruct Ht as (He & Ha & Hr). assert (H := proj1 (u_accepted E c He Ha) p st0). rewrite Hr in H. exact H. Qed.

Lemma utest_prefix l1 ev l2 : evs = l1 ++ ev :: l2 ->
  exists st1, UScan c st0 l1 st1 /\ ((exists op fs, ev = VT (TvOp op fs)) \/ exists st2, UStep c st1 ev st2).
Proof.
  intros Heq. destruct utest_accepted as [H1 H2].
  assert (Hx : forall l' stx, UScan c st0 (l1 ++ ev :: l') stx -> exists st1, UScan c st0 l1 st1 /\ exists st2, UStep c st1 ev st2).
  { intros l' stx H. apply uscan_app in H as (st1 & Ha & Hb). exists st1. split; [done|]. inversion Hb; subst. eauto. }
  assert (Hd : r = AHalt \/ r <> AHalt) by (destruct r; auto). destruct Hd as [Hr|Hr].
  - destruct (H2 Hr) as (l & op & fs & st1 & e & r' & He & HS & _). rewrite Heq in He.
    destruct l2 as [|z l3 _] using rev_ind.
    + apply app_inj_tail in He as [-> ->]. eauto 6.
    + rewrite app_comm_cons, app_assoc in He. apply app_inj_tail in He as [<- ->]. destruct (Hx _ _ HS) as (st2 & Ha & Hb). eauto.
  - specialize (H1 Hr). rewrite Heq in H1. destruct (Hx _ _ H1) as (st1 & Ha & Hb). eauto.
Qed.

Lemma utest_reads l st1 : UScan c st0 l st1 ->
  ts_clock st1 = u_clock_at (start_time wall topts) l /\ ts_opts st1 = standing_options topts ++ u_enabled l /\
  ts_bound st1 = u_binding l /\ ts_icpt st1 = u_interceptor (first_interceptor topts) l /\ ts_compare st1 = given_comparator topts.
Proof.
  intros HS. destruct (scan_reads _ _ _ _ HS) as (H1 & H2 & H3 & H4 & H5 & _).
  destruct (begin_lemma app u wall topts) as (B1 & B2 & B3 & _). destruct (begin_more app u wall topts) as [B4 B5].
  rewrite H1, H2, H3, H4, H5, B1, B2, B3, B4, B5. done.
Qed.

Lemma utest_history : exists est fin, history c u (u_ops evs) est (u_evs evs) fin /\ (r <> AHalt -> est = ts_eng st /\ fin = true).
Proof.
  destruct utest_accepted as [H1 H2]. destruct (begin_lemma app u wall topts) as (_ & _ & _ & B4 & _).
  assert (Hd : r = AHalt \/ r <> AHalt) by (destruct r; auto). destruct Hd as [Hr|Hr].
  - destruct (H2 Hr) as (l & op & fs & st1 & e & r' & He & HS & Hop & Hk & Hrun). destruct (scan_history _ _ _ _ HS) as [H3 H4]. rewrite B4 in H4.
    exists e, (match r' with Fuel => false | _ => true end). split; [|done]. destruct Ht as (_ & Ha & _). split; [done|]. rewrite He, u_ops_app, u_evs_app.
    split; [apply Forall_app; split; [done|]; by constructor|]. rewrite (run_ops_app _ _ _ _ _ _ H4). cbn. rewrite Hrun.
    destruct r'; cbn; by rewrite ?app_nil_r.
  - specialize (H1 Hr). destruct (scan_history _ _ _ _ H1) as [H3 H4]. rewrite B4 in H4. exists (ts_eng st), true. split; [|done].
    destruct Ht as (_ & Ha & _). split; [done|]. by split.
Qed.

Lemma utest_failed : r <> AHalt -> (ts_failed st = true <-> u_failed evs).
Proof.
  intros Hr. rewrite (scan_failed _ _ _ _ (proj1 utest_accepted Hr)). destruct (begin_lemma app u wall topts) as (_ & _ & _ & _ & B5 & _).
  rewrite B5. split; [by intros [?|?]|by right].
Qed.

Lemma utest_sound : exec_ok None (first_interceptor topts) evs /\ (r <> AHalt -> u_balanced evs).
Proof.
  destruct Ht as (He & Ha & Hr). assert (H := proj1 (u_sound E c) p st0). rewrite Hr in H. destruct H as [H1 H2].
  destruct (begin_lemma app u wall topts) as (_ & _ & B3 & _). destruct (begin_more app u wall topts) as [B4 _]. rewrite B3, B4 in H1.
  split; [done|]. intros Hx. by apply H2.
Qed.
End Test.

Lemma exec_ok_at l1 : forall bd ic b l2, exec_ok bd ic (l1 ++ VT (TvExecute b) :: l2) -> u_interceptor ic l1 = None ->
  exists opts, bd_after bd l1 = Some opts /\ dispatches b opts l2.
Proof.
  induction l1 as [|ev l1 IH]; intros bd ic b l2 H Hi; [cbn in *; by apply H|].
  destruct ev as [[]| | | | | | | |]; cbn in *; try (by eapply IH; [eassumption|]).
  destruct H as [_ H]. by eapply IH.
Qed.

(** ** Expect() and Prepare() *)

Lemma observers_existsb n opts :
  existsb (fun o => match o with OptObserver m => m =? n | _ => false end) opts = true <-> n ∈ observers opts.
Proof.
  induction opts as [|o opts IH]; [cbn; split; [done|intros H; inversion H]|].
  cbn [existsb]. rewrite orb_true_iff, IH. destruct o; cbn; try (split; [intros [?|?]; done|by right]).
  rewrite Nat.eqb_eq, elem_of_cons. split; intros [H|H]; auto.
Qed.
Lemma u_observed_spec n l : u_observed n l = notified_to n l.
Proof.
  unfold u_observed. induction l as [|ev l IH]; [done|].
  destruct ev as [ev| | | | | | | |]; try exact IH. destruct ev as [| |op fs| | | | | | | | | | |]; try exact IH.
  assert (Hx : forall opts, (if existsb (fun o => match o with OptObserver m => m =? n | _ => false end) opts then fs else []) =
    (if decide (n ∈ observers opts) then fs else [])).
  { intros opts. destruct (existsb _ opts) eqn:Ee.
    - apply observers_existsb in Ee. by rewrite decide_True.
    - rewrite decide_False; [done|]. intros H. apply observers_existsb in H. congruence. }
  unfold observed in *. destruct op; cbn; rewrite IH, ?Hx; done.
Qed.

Lemma prepare_spec E c a st st' evs r : u_prepare E a (do_u E c a) st = (st', evs, r) -> UPrepares E c a st st' evs r.
Proof.
  unfold u_prepare. destruct (ua_caption a) as [s|v] eqn:Ec; [|intros [= <- <- <-]; by constructor].
  destruct (do_u _ _ _ _ _) as [[st1 evs1] r1] eqn:Ed. cbn [tell].
  destruct r1; try (intros [= <- <- <-]; by eapply up_other).
  cbn [u_fatal]. intros [= <- <- <-]. by eapply up_error.
Qed.

Lemma expect_spec E c a e st st' evs r : u_expect E c a (do_u E c a) e st = (st', evs, r) -> UExpects E c a e st st' evs r.
Proof.
  unfold u_expect. fold (plain_options st).
  destruct (ua_conf a (plain_options st)) as [o|v] eqn:Eo; [|intros [= <- <- <-]; by constructor].
  destruct (ua_caption a) as [s|v] eqn:Ec; [|intros [= <- <- <-]; by eapply ue_caption].
  fold (scope_of E c o). set (sc := scope_of E c o).
  destruct (new_predicate sc e) as [p|er] eqn:Ep.
  2:{ cbn [u_fatal]. intros [= <- <- <-]. eapply ue_impossible; [done..|apply reject_lemma; by exists er|by apply because_lemma]. }
  assert (Hni : ~ impossible sc e). { intros Hi. apply reject_lemma in Hi as [er Hi]. congruence. }
  destruct (do_u _ _ _ _ _) as [[st1 evs1] r1] eqn:Ea. rewrite u_observed_spec.
  assert (Hdec : r1 = AHalt \/ r1 <> AHalt) by (destruct r1; auto). destruct Hdec as [->|Hr].
  { intros [= <- <- <-]. by eapply ue_halted. }
  destruct (p_done _) as [p1 dp] eqn:Ed.
  destruct dp as [v|].
  - assert (Hx : (st', evs, r) = (st1, [VConfigure (plain_options st); VHeading s (Some e)] ++ VT TvPredicate :: evs1 ++ [VT TvFinal], APan (s_panic v)) -> UExpects E c a e st st' evs r).
    { intros [= -> -> ->]. eapply ue_panics; [done..|exact Ea|done|]. intros q (p0 & Hp0 & Hq). fold sc in Hp0. rewrite Ep in Hp0. injection Hp0 as <-. fold sc in Hq. congruence. }
    destruct r1; try done; intros H; symmetry in H; by apply Hx.
  - assert (Haf : after sc (notified_to (ts_next st) evs1) e p1) by (exists p; done).
    assert (Hv := proj1 (after_good _ _ _ _ Haf)).
    assert (Hnotes := proj2 (u_run_notes E c) _ _ _ _ _ _ Ea). cbn in Hnotes. rewrite Hnotes.
    assert (Hx : forall rest res failed, u_concludes E sc (notified_to (ts_next st) evs1) e (ts_next st) (ts_notes st ++ u_annotated evs1) r1 p1 rest res failed ->
      (st', evs, r) = (if failed : bool then set_failed st1 else st1, VConfigure (plain_options st) :: VHeading s (Some e) :: VT TvPredicate :: evs1 ++ VT TvFinal :: (VT <$> rest), res) -> UExpects E c a e st st' evs r).
    { intros rest res failed Hc [= -> -> ->]. by eapply ue_concludes. }
    destruct r1; try done.
    + destruct (p_ok p1) eqn:Eok; intros [= <- <- <-].
      * eapply Hx; [apply uc_met; by apply Hv|]. cbn. by rewrite <- app_assoc.
      * eapply Hx; [apply uc_unmet|]; [intros Hm; apply Hv in Hm; congruence|]. cbn. by rewrite <- !app_assoc.
    + cbn [u_fatal]. intros [= <- <- <-]. eapply Hx; [apply uc_error|]. cbn. by rewrite <- app_assoc.
    + intros [= <- <- <-]. eapply Hx; [apply uc_panic|]. done.
    + intros [= <- <- <-]. eapply Hx; [apply uc_goexit|]. done.
Qed.
End Proof.
