(** * Tests: the virtual clock, enablement, the command executor and Expect (C50, C54-C59,
    C75, C76). *)
From Verif Require Import TestSpec TestLemmas TestProof EngineLemmas ExpectLemmas PropsExpect Demo.
From Coq Require Import Lia.

(** ** Actions in progress *)

(** The innermost action in progress is determined by what was observed, so that the
    theorems below, which say that it exists, say what it is. *)
Theorem C55_innermost : forall {P : Params} l l0 k l' l1 k1 l1',
  in_action l l0 k l' -> in_action l l1 k1 l1' -> l0 = l1 /\ k = k1 /\ l' = l1'.
Proof. intros P l l0 k l' l1 k1 l1'. apply in_action_unique. Qed.
Print Assumptions C55_innermost.

(** ** C54: the clock *)

Theorem C54_monotone : forall {P : Params} E app u wall topts p st evs r,
  testing E app u wall topts p st evs r ->
  StronglySorted Z.le (start_time wall topts :: clock_sets evs) /\
  (r <> Halted -> ts_clock st = clock_at (start_time wall topts) evs).
Proof.
  intros P E app u wall topts p st evs r H. destruct (testing_scan _ _ _ _ _ _ _ _ _ H) as (a & HS & HR).
  split; [by apply (scan_sorted _ _ _ _ _ HS)|]. intros Hr. rewrite <- (rel_clock _ _ _ (HR Hr)). apply (scan_clock _ _ _ _ _ HS).
Qed.
Print Assumptions C54_monotone.

(** Reversal: nothing but the error. *)
Theorem C54_reverse : forall {P : Params} E c j opts st t,
  adj_step j (ts_clock st) = inl t -> (t < ts_clock st)%Z ->
  do_action E c (ActAdvance j) opts st = (st, [TvDo AkAdvance; TvDid AkAdvance], AErr (TReverse j)).
Proof.
  intros P E c j opts st t Hs Ht. cbn [do_action]. unfold do_advance. rewrite Hs. destruct (Z.ltb_spec t (ts_clock st)); [done|lia].
Qed.
Print Assumptions C54_reverse.

(** The duration given to ByDuration is not negative, or it panics. *)
Theorem C54_by_duration : forall {P : Params} d,
  match by_duration d with
  | inl a => (0 <= d)%Z /\ a = ActAdvance (JBy d) /\ forall t, adj_step (JBy d) t = inl (t + d)%Z
  | inr _ => (d < 0)%Z
  end.
Proof. intros P d. unfold by_duration. destruct (Z.ltb_spec d 0); [done|]. done. Qed.
Print Assumptions C54_by_duration.

(** ** C55: the time of operations *)

(** Dispatches and executed commands: the time at which the action began, unless an
    unsafe option sets the time. *)
Theorem C55_dispatch : forall {P : Params} E app u wall topts p st evs r l1 op fs l2 env now et eh,
  testing E app u wall topts p st evs r -> evs = l1 ++ TvOp op fs :: l2 ->
  (forall t, OptNow t ∉ unsafe topts) ->
  DispatchCycleBegun env now et eh ∈ fs ->
  exists l0 k l', in_action l1 l0 k l' /\ k <> AkAdvance /\
    now = clock_at (start_time wall topts) l0 /\ e_created env = now.
Proof.
  intros P E app u wall topts p st evs r l1 op fs l2 env now et eh Ht He Hu Hf.
  destruct (test_op _ _ _ _ _ _ _ _ _ _ _ _ _ Ht He) as (e & e' & res & Hr & Hop & Hrun & l0 & k & l' & obs & Hin & Hk).
  assert (C := op_cycle _ _ _ _ _ _ _ Hr Hop Hrun Hf). exists l0, k, l'. split; [done|].
  destruct C as (Hnow & Hc & _ & o' & fuel' & opts' & Heq).
  destruct k; [|by destruct Hk as (o & fuel & order & ->)|];
    (split; [done|]); (split; [|done]); rewrite Hnow;
    destruct Hk as (o & fuel & m & ->); cbn [op_now]; unfold op_time; by rewrite (time_lemma _ _ _ _ Hu).
Qed.
Print Assumptions C55_dispatch.

(** Ticks: the time to which the action has set the clock, whatever the options. *)
Theorem C55_tick : forall {P : Params} E app u wall topts p st evs r l1 op fs l2 now et eh,
  testing E app u wall topts p st evs r -> evs = l1 ++ TvOp op fs :: l2 ->
  TickCycleBegun now et eh ∈ fs ->
  exists l0 l', in_action l1 l0 AkAdvance l' /\ now = clock_at (start_time wall topts) l1.
Proof.
  intros P E app u wall topts p st evs r l1 op fs l2 now et eh Ht He Hf.
  destruct (test_op _ _ _ _ _ _ _ _ _ _ _ _ _ Ht He) as (e & e' & res & Hr & Hop & Hrun & l0 & k & l' & obs & Hin & Hk).
  assert (C := op_cycle _ _ _ _ _ _ _ Hr Hop Hrun Hf).
  destruct C as (Hnow & _ & o' & fuel' & order' & opts' & Heq).
  destruct k; [by destruct Hk as (o & fuel & m & ->)| |by destruct Hk as (o & fuel & m & ->)].
  exists l0, l'. split; [done|]. destruct Hk as (o & fuel & order & ->).
  rewrite Hnow. cbn [op_now]. unfold op_time. by rewrite last_opt_app.
Qed.
Print Assumptions C55_tick.

(** AdvanceTime that does not reverse the clock: the clock is set, then there is one
    tick. *)
Theorem C55_advance : forall {P : Params} E c j opts st t st' evs r,
  adj_step j (ts_clock st) = inl t -> (ts_clock st <= t)%Z ->
  do_action E c (ActAdvance j) opts st = (st', evs, r) ->
  ts_clock st' = t /\
  exists o fuel order opts' fs,
    evs = TvDo AkAdvance :: TvClock t :: TvOp (OpTick o fuel order opts') fs :: (match r with AHalt => [] | _ => [TvDid AkAdvance] end).
Proof.
  intros P E c j opts st t st' evs r Hs Ht. cbn [do_action]. unfold do_advance. rewrite Hs.
  destruct (Z.ltb_spec t (ts_clock st)); [lia|]. unfold engine_op.
  set (op := OpTick _ _ _ _). destruct (run_op c op _) as [[es ev] res]. cbn. intros [= <- <- <-]. split; [done|].
  unfold op. repeat eexists.
Qed.
Print Assumptions C55_advance.

(** ** C56: enablement *)

(** Who is engaged: as if the enablement at the beginning of the innermost action was the
    only thing that matters. *)
Theorem C56_engagement : forall {P : Params} E app u wall topts p st evs r l1 op fs l2,
  testing E app u wall topts p st evs r -> evs = l1 ++ TvOp op fs :: l2 -> tame topts ->
  exists l0 k l', in_action l1 l0 k l' /\ Forall (engagement (test_config app) (test_skips l0)) fs.
Proof.
  intros P E app u wall topts p st evs r l1 op fs l2 Ht He Hu.
  destruct (test_op_opts _ _ _ _ _ _ _ _ _ _ _ _ _ Ht He Hu) as (l0 & k & l' & Hin & _ & _ & Hs).
  destruct (test_op _ _ _ _ _ _ _ _ _ _ _ _ _ Ht He) as (e & e' & res & Hr & Hop & Hrun & _).
  exists l0, k, l'. split; [done|].
  assert (F : Forall (engagement (test_config app) (skipped (op_opts op))) fs).
  { destruct fs as [|f fs]; [constructor|]. eapply C33_lemma. split; [exact Hr|]. split; [exact Hop|]. split; [exact Hrun|]. discriminate. }
  eapply Forall_impl; [exact F|]. intros f. apply engagement_ext. done.
Qed.
Print Assumptions C56_engagement.

(** What the facts say about enablement. *)
Theorem C56_reported : forall {P : Params} E app u wall topts p st evs r l1 op fs l2 f,
  testing E app u wall topts p st evs r -> evs = l1 ++ TvOp op fs :: l2 -> tame topts -> f ∈ fs ->
  match f with
  | DispatchCycleBegun _ _ et eh | TickCycleBegun _ et eh =>
    exists l0 k l', in_action l1 l0 k l' /\
      (forall ht, et_get et ht = match ht with HTAggregate | HTProcess => true | HTIntegration | HTProjection => false end) /\
      (forall n, eh !! n = last_enable l0 n)
  | _ => True
  end.
Proof.
  intros P E app u wall topts p st evs r l1 op fs l2 f Ht He Hu Hf.
  destruct (test_op_opts _ _ _ _ _ _ _ _ _ _ _ _ _ Ht He Hu) as (l0 & k & l' & Hin & Hh & Hty & _).
  destruct (test_op _ _ _ _ _ _ _ _ _ _ _ _ _ Ht He) as (e & e' & res & Hr & Hop & Hrun & _).
  assert (C := op_cycle _ _ _ _ _ _ _ Hr Hop Hrun Hf). destruct f as [env now et eh| | | | | | |now et eh| | | | | | | | | | | | | | | | | | | | | | | | | | ]; try exact I; cbn in C.
  - destruct C as (_ & _ & [Het Heh] & _). exists l0, k, l'. split; [done|].
    split; [intros ht; rewrite Het, Hty; by destruct ht|intros n; by rewrite Heh, Hh].
  - destruct C as (_ & [Het Heh] & _). exists l0, k, l'. split; [done|].
    split; [intros ht; rewrite Het, Hty; by destruct ht|intros n; by rewrite Heh, Hh].
Qed.
Print Assumptions C56_reported.

(** A handler disabled by its configuration is never engaged. *)
Theorem C56_disabled : forall {P : Params} E app u wall topts p st evs r l1 op fs l2 h,
  testing E app u wall topts p st evs r -> evs = l1 ++ TvOp op fs :: l2 -> tame topts ->
  h ∈ app -> (exists e, HandlingBegun (h_id h) e ∈ fs) \/ TickBegun (h_id h) ∈ fs -> h_disabled h = false.
Proof.
  intros P E app u wall topts p st evs r l1 op fs l2 h Ht He Hu Hh Hf.
  destruct (C56_engagement _ _ _ _ _ _ _ _ _ _ _ _ _ Ht He Hu) as (l0 & k & l' & Hin & F).
  assert (Hs : exists hd, hd ∈ app /\ h_id hd = h_id h /\ test_skips l0 hd = None).
  { rewrite Forall_forall in F. destruct Hf as [(e & Hf)|Hf]; apply F in Hf; done. }
  destruct Hs as (hd & Hd & Hid & Hs). assert (hd = h) as ->.
  { eapply (app_ok_name (test_config app)); [apply Ht|done|done|]. unfold h_id in Hid. by injection Hid. }
  unfold test_skips in Hs. destruct (last_enable l0 (h_name h)) as [[]|] eqn:El; [|done|by destruct (h_disabled h)].
  destruct (testing_scan _ _ _ _ _ _ _ _ _ Ht) as (a & HS & _). destruct Ht as (Ht1 & Ht2 & Ht3). rewrite He in HS.
  apply last_enable_elem in El.
  destruct (scan_enabled _ _ _ _ _ (h_name h) HS) as (h' & Hc & Hd').
  { destruct Hin as [-> _]. by repeat (apply elem_of_app; left). }
  apply controllers_in in Hc as [Hc1 Hc2]. assert (h' = h) as <-; [|done].
  eapply app_ok_name; [exact Ht2|exact Hc1|exact Hh|done].
Qed.
Print Assumptions C56_disabled.

(** EnableHandlers and DisableHandlers: each name in turn, until the first that names no
    handler, or that is to be enabled though it is disabled by its configuration. *)
Theorem C56_named : forall {P : Params} c names b st st' evs v,
  enable_handlers c names b st = (st', evs, v) ->
  exists yes no, names = yes ++ no /\ evs = map (fun n => TvEnable n b) yes /\
    (forall n, n ∈ yes -> exists h, h ∈ c_app c /\ h_name h = n) /\
    match v with
    | None => no = []
    | Some _ => exists n rest, no = n :: rest /\
        ((forall h, h ∈ c_app c -> h_name h <> n) \/ (b = true /\ exists h, h ∈ c_app c /\ h_name h = n /\ h_disabled h = true))
    end.
Proof. intros P c names b st st' evs v. apply enable_lemma. Qed.
Print Assumptions C56_named.

(** EnableHandlersLike and DisableHandlersLike: all or nothing. *)
Theorem C56_matching : forall {P : Params} E c pats b st st' evs v,
  env_ok E c -> enable_handlers_like E c pats b st = (st', evs, v) ->
  match v with
  | None => Forall (fun pat => ~ bad_pattern c pat) pats /\
      exists names, evs = map (fun n => TvEnable n b) names /\ NoDup names /\ forall n, n ∈ names <-> selects c pats n
  | Some _ => Exists (bad_pattern c) pats /\ evs = [] /\ st' = st
  end.
Proof.
  intros P E c pats b st st' evs v (_ & _ & Hsh). unfold enable_handlers_like.
  assert (M := match_lemma c pats []). destruct (match_handlers c pats []) as [names|w].
  - intros [= <- <- <-]. destruct M as [M1 M2]. split; [done|]. eexists. split; [done|].
    split; [rewrite Hsh; apply NoDup_remove_dups|]. intros n. rewrite Hsh, elem_of_remove_dups, M1.
    split; [intros [H|H]; [inversion H|done]|by right].
  - by intros [= <- <- <-].
Qed.
Print Assumptions C56_matching.

(** ** C57: the command executor *)

(** It works while a Call is the innermost action, and only then... *)
Theorem C57_usable : forall {P : Params} E app u wall topts p st evs r l1 b l2,
  testing E app u wall topts p st evs r -> evs = l1 ++ TvExecute b :: l2 -> calling l1.
Proof.
  intros P E app u wall topts p st evs r l1 b l2 Ht He. destruct (testing_scan _ _ _ _ _ _ _ _ _ Ht) as (a & HS & _).
  rewrite He in HS. apply scan_split in HS as (a1 & a2 & HS & Hst). inversion Hst as [| | | | |? ? opts s Hs Hb| | | | | | | |]; subst.
  exact (proj2 (scan_calling _ _ _ (a_init app u wall topts) a2 eq_refl HS) opts s Hs Hb).
Qed.
Print Assumptions C57_usable.

(** ... unless another Call has been performed by the Call's function. *)
Theorem C57_outside : forall {P : Params} E app u wall topts p st evs r l1 b l2,
  testing E app u wall topts p st evs r -> evs = l1 ++ TvOutside b :: l2 -> ~ calling l1.
Proof.
  intros P E app u wall topts p st evs r l1 b l2 Ht He Hc. destruct (testing_scan _ _ _ _ _ _ _ _ _ Ht) as (a & HS & _).
  rewrite He in HS. apply scan_split in HS as (a1 & a2 & HS & Hst). inversion Hst; subst.
  apply (scan_calling _ _ _ (a_init app u wall topts) a2 eq_refl HS) in Hc as (opts & Hc). congruence.
Qed.
Print Assumptions C57_outside.

(** Every use is one or the other: a panic that changes nothing, or what the engine, or
    the interceptor, does. *)
Theorem C57_panic : forall {P : Params} E c b st st' evs r,
  execute_command E c b st = (st', evs, r) ->
  (evs = [TvOutside b] /\ st' = st /\ r = APan (PEngine "ExecuteCommand(): cannot be called outside of a test" None)) \/
  exists evs' opts, evs = TvExecute b :: evs' /\
    match ts_icpt st with
    | None => engine_execute E c opts b st = (st', evs', r)
    | Some i => run_icpt E c opts (i b) st = (st', evs', r)
    end.
Proof.
  intros P E c b st st' evs r. unfold execute_command. destruct (ts_bound st) as [opts|]; [|intros [= <- <- <-]; by left].
  intros He. right. destruct (ts_icpt st) as [i|].
  - destruct (run_icpt _ _ _ _ _) as [[s e] x] eqn:Ee. injection He as <- <- <-. by exists e, opts.
  - destruct (engine_execute _ _ _ _ _) as [[s e] x] eqn:Ee. injection He as <- <- <-. by exists e, opts.
Qed.
Print Assumptions C57_panic.

(** After a Call that returned, panicked or stopped the goroutine. *)
Theorem C57_restored : forall {P : Params} E c fn i opts st st' evs r,
  do_action E c (ActCall fn i) opts st = (st', evs, r) -> r <> AHalt ->
  ts_bound st' = None /\ ts_icpt st' = ts_icpt st.
Proof.
  intros P E c fn i opts st st' evs r Hd Hr. split; [exact (call_unbinds _ _ _ _ _ _ _ _ _ Hd Hr)|].
  exact (proj2 (run_keeps_icpt E c) (ActCall fn i) _ _ _ _ _ Hd Hr).
Qed.
Print Assumptions C57_restored.

(** During a Call with an interceptor it is the one in force. *)
Theorem C57_interceptor : forall {P : Params} E c fn i opts st,
  exists st1, do_action E c (ActCall fn i) opts st = bracket AkCall
    (let '(st2, evs, r) := run_test E c fn st1 in
     match r with
     | Halted => (st2, evs, AHalt)
     | Done => (set_bound None (set_icpt (ts_icpt st) st2), evs, AOk)
     | Panicked v => (set_bound None (set_icpt (ts_icpt st) st2), evs, APan v)
     | Goexited => (set_bound None (set_icpt (ts_icpt st) st2), evs, AGoexit)
     end) /\
    ts_bound st1 = Some opts /\ ts_icpt st1 = match i with Some _ => i | None => ts_icpt st end /\
    ts_eng st1 = ts_eng st /\ ts_clock st1 = ts_clock st /\ ts_opts st1 = ts_opts st.
Proof.
  intros P E c fn i opts st.
  change (do_action E c (ActCall fn i) opts st) with (bracket AkCall (do_call (run_test E c fn) i opts st)).
  unfold do_call. destruct i as [i|].
  - exists (set_icpt (Some i) (set_bound (Some opts) st)). split; [|done].
    destruct (run_test E c fn _) as [[st2 evs] []]; done.
  - exists (set_bound (Some opts) st). split; [|done].
    assert (K := proj1 (run_keeps_icpt E c) fn (set_bound (Some opts) st)).
    destruct (run_test E c fn _) as [[st2 evs] r] eqn:Er.
    assert (K' := K _ _ _ eq_refl). destruct r; try done; (assert (K2 : ts_icpt st2 = ts_icpt st) by exact (K' ltac:(done))); rewrite <- K2; by destruct st2.
Qed.
Print Assumptions C57_interceptor.

(** ** C58: usability throughout Call *)

(** It is usable throughout a function that performs no Call. *)
Theorem C58_usable : forall {P : Params} E c fn i opts st st' evs r b,
  callless fn -> do_action E c (ActCall fn i) opts st = (st', evs, r) -> TvOutside b ∉ evs.
Proof.
  intros P E c fn i opts st st' evs r b Hc.
  destruct (C57_interceptor E c fn i opts st) as (st1 & -> & Hb & _).
  destruct (run_test E c fn st1) as [[st2 e] x] eqn:Er.
  assert (B := callless_bound E c fn Hc st1 _ _ _ ltac:(congruence) Er). destruct B as [_ B].
  destruct x; cbn; intros [= <- <- <-]; rewrite elem_of_cons, elem_of_app; intros [Hx|[Hx|Hx]]; try done;
    try (by apply B in Hx); try (by inversion Hx); by apply elem_of_list_singleton in Hx.
Qed.
Print Assumptions C58_usable.

(** Otherwise, it is unusable only after another Call. *)
Theorem C58_after_call : forall {P : Params} E app u wall topts p st evs r l1 b l2 l0 l',
  testing E app u wall topts p st evs r -> evs = l1 ++ TvOutside b :: l2 ->
  in_action l1 l0 AkCall l' -> TvDid AkCall ∈ l'.
Proof.
  intros P E app u wall topts p st evs r l1 b l2 l0 l' Ht He Hin.
  destruct (did_dec l') as [H|H]; [done|]. exfalso. apply (C57_outside _ _ _ _ _ _ _ _ _ _ _ _ Ht He). by exists l0, l'.
Qed.
Print Assumptions C58_after_call.

(** In general it is not: after a Call performed by the function it panics. *)
Definition demo_app : list Handler := [hAgg; hProc; hInt; hProj].
Definition demo_env : TEnv :=
  mkTEnv (fun _ => quietly) (fun _ => 20) (fun _ => [hProj; hProc; hAgg; hInt]) (fun _ => demo_texts) (fun l => l)
    (fun a b => bool_decide (b_data (m_body a) = b_data (m_body b))) true
    (mkGoLib (fun _ => false) (fun _ _ => false) (fun _ _ => false)) (fun _ _ => rt_render demo_texts).
Lemma demo_env_ok : env_ok demo_env (test_config demo_app).
Proof.
  split; [intros n; apply quietly_ok|]. split; [|done]. intros n. cbn [te_order demo_env test_config c_app]. unfold demo_app.
  change [hAgg; hProc; hInt; hProj] with ([hAgg; hProc; hInt] ++ [hProj]).
  rewrite <- Permutation_cons_append. constructor. apply Permutation_swap.
Qed.
Lemma demo_app_ok : app_ok (test_config demo_app).
Proof. solve_app_ok. Qed.
Lemma demo_testing topts p :
  let x := run_test demo_env (test_config demo_app) p (begin demo_app [] 100 topts) in
  testing demo_env demo_app [] 100 topts p x.1.1 x.1.2 x.2.
Proof. split; [apply demo_env_ok|]. split; [apply demo_app_ok|]. by destruct (run_test _ _ _ _) as [[? ?] ?]. Qed.

Definition nested_call : TProg :=
  TPrepare (ActCall (TPrepare (ActCall TRet None) (fun _ => TExecute (body "Open" 4) (fun _ => TRet))) None) (fun _ => TRet).
Theorem C58_refuted :
  exists E app u wall topts p st evs r l1 b l2 l0 l',
    testing E app u wall topts p st evs r /\ evs = l1 ++ TvOutside b :: l2 /\ in_action l1 l0 AkCall l'.
Proof.
  exists demo_env, demo_app, [], 100%Z, [], nested_call. do 3 eexists.
  exists [TvDo AkCall; TvDo AkCall; TvDid AkCall], (body "Open" 4), [TvDid AkCall], [], [TvDo AkCall; TvDid AkCall].
  split; [exact (demo_testing [] nested_call)|]. split; [reflexivity|].
  split; [reflexivity|]. apply (bal_action AkCall [] []); constructor.
Qed.
Print Assumptions C58_refuted.

(** ** C59: Expect *)

(** The three outcomes of Expect, see [Expects]: the test is failed exactly if the
    expectation is impossible, the action failed or the expectation was not met by the
    facts of the action's own operations.  The hypothesis [new_observer] holds of every
    state of a test, see the next theorems. *)
Theorem C59_expect : forall {P : Params} E c a e st st' evs r,
  env_ok E c -> app_ok c -> new_observer st ->
  expect E c (a_kind a) (do_action E c a) e st = (st', evs, r) -> Expects E c a e st st' evs r.
Proof. intros P E c a e st st' evs r. apply expect_lemma. Qed.
Print Assumptions C59_expect.

(** [visits E c p st p' st']: the code [p], starting in [st], gets to [p'] in [st'],
    possibly in the function of a Call. *)
Theorem C59_observers : forall {P : Params} E app u wall topts p p' st',
  env_ok E (test_config app) -> app_ok (test_config app) ->
  visits E (test_config app) p (begin app u wall topts) p' st' -> new_observer st'.
Proof. intros P E app u wall topts p p' st' He Ha Hv. apply (visits_new_observer E _ p _ p' st' He Ha Hv). apply new_observer_begin. Qed.
Print Assumptions C59_observers.

(** So for each Expect in a test. *)
Theorem C59_every_expect : forall {P : Params} E app u wall topts p a e k st st' evs r,
  env_ok E (test_config app) -> app_ok (test_config app) ->
  visits E (test_config app) p (begin app u wall topts) (TExpect a e k) st ->
  expect E (test_config app) (a_kind a) (do_action E (test_config app) a) e st = (st', evs, r) ->
  Expects E (test_config app) a e st st' evs r.
Proof.
  intros P E app u wall topts p a e k st st' evs r He Ha Hv Hx. apply expect_lemma; try done.
  by eapply C59_observers.
Qed.
Print Assumptions C59_every_expect.

(** The test is failed by Fatal() and FailNow() only. *)
Theorem C59_failed : forall {P : Params} E app u wall topts p st evs r,
  testing E app u wall topts p st evs r -> r <> Halted ->
  (ts_failed st = true <-> TvFailNow ∈ evs \/ exists e, TvFatal e ∈ evs).
Proof.
  intros P E app u wall topts p st evs r Ht Hr. destruct (testing_scan _ _ _ _ _ _ _ _ _ Ht) as (a & HS & HR).
  rewrite <- (rel_failed _ _ _ (HR Hr)). rewrite (scan_failed _ _ _ _ _ HS). cbn.
  intuition done.
Qed.
Print Assumptions C59_failed.

(** ** C50: impossible expectations *)
Theorem C50_not_performed : forall {P : Params} E c a e st,
  impossible (test_scope E c (a_kind a) st) e ->
  exists er, because (test_scope E c (a_kind a) st) e er /\
    expect E c (a_kind a) (do_action E c a) e st = (set_failed st, [TvFatal (TImpossible er)], stop E).
Proof.
  intros P E c a e st Hi. apply C50_rejected in Hi as (er & Hi). exists er. split; [by apply C50_reason|]. unfold expect. by rewrite Hi.
Qed.
Print Assumptions C50_not_performed.

(** ** C75: Prepare *)
Theorem C75_prepare : forall {P : Params} E c a st st' evs r,
  prepare E (do_action E c a) st = (st', evs, r) ->
  exists st1 evs1 ar, do_action E c a (action_options [] st) st = (st1, evs1, ar) /\
    match ar with
    | AErr er => st' = set_failed st1 /\ evs = evs1 ++ [TvFatal er] /\ r = stop E
    | AOk => st' = st1 /\ evs = evs1 /\ r = Done
    | APan v => st' = st1 /\ evs = evs1 /\ r = Panicked v
    | AGoexit => st' = st1 /\ evs = evs1 /\ r = Goexited
    | AHalt => st' = st1 /\ evs = evs1 /\ r = Halted
    end.
Proof.
  intros P E c a st st' evs r. unfold prepare. destruct (do_action E c a _ st) as [[st1 evs1] ar].
  intros H. exists st1, evs1, ar. split; [done|]. destruct ar; cbn in H; by injection H as <- <- <-.
Qed.
Print Assumptions C75_prepare.

(** ** C76: tests are histories of the engine *)
Theorem C76_history : forall {P : Params} E app u wall topts p st evs r,
  testing E app u wall topts p st evs r ->
  exists est fin, history (test_config app) u (engine_ops evs) est (EvFact <$> engine_facts evs) fin /\
    (r <> Halted -> est = ts_eng st /\ fin = true).
Proof.
  intros P E app u wall topts p st evs r Ht. destruct (testing_scan _ _ _ _ _ _ _ _ _ Ht) as (a & HS & HR).
  destruct (scan_history _ _ _ _ _ HS eq_refl) as [H1 H2]. exists (ab_eng a), (ab_live a). split.
  - split; [apply Ht|]. split; [done|]. exact H2.
  - intros Hr. destruct (HR Hr). done.
Qed.
Print Assumptions C76_history.

(** ** Examples *)

(** A test that dispatches, enables a handler, advances the clock, calls a function that
    executes a command, performs a Call of its own and executes another command. *)
Definition demo_test : TProg :=
  TPrepare (ActDispatch (command "Open" 4)) (fun _ =>
  TEnable ["int"%string] true (fun _ =>
  TExpect (ActAdvance (JBy 10)) (XType (KEvent, "Notified"%string)) (fun _ =>
  TExpect (ActCall (TExecute (body "Open" 6) (fun _ =>
                    TPrepare (ActCall (TExecute (body "Open" 8) (fun _ => TRet)) None) (fun _ =>
                    TExecute (body "Open" 1) (fun _ => TRet)))) None)
          (XMessage (command "Open" 6)) (fun _ =>
  TEnableLike [Some (fun n => String.eqb n "int" || String.eqb n "proj")] false (fun _ =>
  TExpect (ActDispatch (command "Open" 2)) (XMessage (command "Open" 6)) (fun _ =>
  TRet)))))).
Definition kind_tag (k : AKind) : string := match k with AkDispatch => "dispatch" | AkAdvance => "advance" | AkCall => "call" end.
Definition tag (ev : TEv) : string :=
  match ev with
  | TvDo k => "do " ++ kind_tag k | TvDid k => "did " ++ kind_tag k
  | TvOp op fs => match fs with DispatchCycleBegun _ _ _ _ :: _ => "dispatch" | TickCycleBegun _ _ _ :: _ => "tick" | _ => "op" end
  | TvUser _ => "user" | TvClock _ => "clock" | TvExecute b => "execute" | TvOutside _ => "outside"
  | TvEnable n true => "enable " ++ n | TvEnable n false => "disable " ++ n | TvAnnotate _ => "annotate"
  | TvPredicate => "predicate" | TvFinal => "final" | TvReport _ => "report" | TvFatal _ => "fatal" | TvFailNow => "fail" end%string.
Definition demo_out := run_test demo_env (test_config demo_app) demo_test (begin demo_app [] 100 []).
Example C54_example : tag <$> demo_out.1.2 =
  ["do dispatch"; "dispatch"; "did dispatch"; "enable int";
   "predicate"; "do advance"; "clock"; "tick"; "did advance"; "final"; "report";
   "predicate"; "do call"; "execute"; "dispatch"; "do call"; "execute"; "dispatch"; "did call"; "outside"; "did call"; "final"; "report";
   "disable int"; "disable proj"; "fatal"]%string /\ demo_out.2 = Goexited /\ ts_clock demo_out.1.1 = 110%Z /\ ts_failed demo_out.1.1 = true.
Proof. vm_compute. done. Qed.
(** The times of the cycles. *)
Definition nows (l : list TEv) : list Z :=
  omap (fun f => match f with DispatchCycleBegun _ now _ _ => Some now | TickCycleBegun now _ _ => Some now | _ => None end) (engine_facts l).
Example C55_example : nows demo_out.1.2 = [100; 110; 110; 110]%Z /\ (forall t, OptNow t ∉ unsafe []) /\
  testing demo_env demo_app [] 100 [] demo_test demo_out.1.1 demo_out.1.2 demo_out.2.
Proof. split; [vm_compute; reflexivity|]. split; [intros t H; inversion H|]. exact (demo_testing [] demo_test). Qed.
(** Who is engaged: the integration once it is enabled, the projection never. *)
Definition engaged (l : list TEv) : list string :=
  omap (fun f => match f with HandlingBegun h _ => Some (hid_name h) | _ => None end) (engine_facts l).
Example C56_example : tame [] /\ engaged demo_out.1.2 = ["agg"; "proc"; "proc"; "int"; "agg"; "proc"; "int"; "agg"; "proc"; "int"]%string.
Proof. split; [split; intros ? ? H; inversion H|]. vm_compute. reflexivity. Qed.
Example C56_named_example :
  exists st' v, enable_handlers (test_config demo_app) ["proj"; "nope"; "int"]%string true (begin demo_app [] 100 []) = (st', [TvEnable "proj" true], Some v).
Proof. do 2 eexists. vm_compute. reflexivity. Qed.
(** An Expect that passes and one that fails. *)
Definition dispatching (e : Exp) : TProg := TExpect (ActDispatch (command "Open" 4)) e (fun _ => TRet).
Definition expecting (e : Exp) := expect demo_env (test_config demo_app) AkDispatch (do_action demo_env (test_config demo_app) (ActDispatch (command "Open" 4))) e (begin demo_app [] 100 []).
Example C59_example :
  tag <$> (expecting (XMessage (event "Opened" 4))).1.2 = ["predicate"; "do dispatch"; "dispatch"; "did dispatch"; "final"; "report"]%string /\
  (expecting (XMessage (event "Opened" 4))).2 = Done /\
  tag <$> (expecting (XType (KEvent, "Notified"%string))).1.2 = ["predicate"; "do dispatch"; "dispatch"; "did dispatch"; "final"; "report"; "fail"]%string /\
  (expecting (XType (KEvent, "Notified"%string))).2 = Goexited /\
  tag <$> (expecting (XType (KCommand, "Open"%string))).1.2 = ["fatal"]%string.
Proof. vm_compute. done. Qed.
Lemma surjective_pairing_3 {A B C} (x : A * B * C) : x = (x.1.1, x.1.2, x.2).
Proof. by destruct x as [[? ?] ?]. Qed.
Example C59_example_visits : new_observer (begin demo_app [] 100 []) /\
  exists st a e k, visits demo_env (test_config demo_app) demo_test (begin demo_app [] 100 []) (TExpect a e k) st.
Proof.
  split; [apply new_observer_begin|]. do 4 eexists.
  eapply (vi_prepare _ _ _ _ _ _ _ _ None); [apply surjective_pairing_3|vm_compute; done|].
  eapply vi_enable; [apply surjective_pairing_3|]. apply vi_here.
Qed.
(** An interceptor that replaces the command. *)
Example C57_example :
  let fn := TExecute (body "Open" 4) (fun _ => TRet) in
  let i : Interceptor := fun b => INext (body "Open" 7) (fun _ => INext b (fun _ => TestModel.IRet None)) in
  let x := run_test demo_env (test_config demo_app) (TPrepare (ActCall fn (Some i)) (fun _ => TPrepare (ActCall (TExecute (body "Open" 4) (fun _ => TRet)) None) (fun _ => TExecute (body "Open" 4) (fun _ => TRet)))) (begin demo_app [] 100 []) in
  callless fn /\ tag <$> x.1.2 = ["do call"; "execute"; "dispatch"; "dispatch"; "did call"; "do call"; "execute"; "dispatch"; "did call"; "outside"]%string.
Proof. split; [constructor; intros; constructor|]. vm_compute. reflexivity. Qed.
