(** * What expectations and actions of a test are given: C81 *)
From Verif Require Import Demo TestSpec TestScopeProof PropsTest.

(** The expectation of an Expect() with a Call considers the messages dispatched by the
    function as well as those produced by handlers; that of other actions the latter
    only.  Messages are compared with the comparator given last to Begin(), or the
    default one.  Which types it regards as possible depends on the handlers. *)
Theorem C81_scope : forall {P : Params} E app u wall topts p a e k st,
  visits E (test_config app) p (begin app u wall topts) (TExpect a e k) st ->
  let s := test_scope E (test_config app) (a_kind a) st in
  (forall f env, considered (sc_match s) f = Some env <->
     (exists h i rt rv, f = EventRecordedByAggregate h i rt rv env) \/ (exists h m, f = EventRecordedByIntegration h m env) \/
     (exists h i rt m, f = CommandExecutedByProcess h i rt m env) \/ (exists h i rt m, f = TimeoutScheduledByProcess h i rt m env) \/
     (exists fn i, a = ActCall fn i) /\ exists now et hn, f = DispatchCycleBegun env now et hn) /\
  sc_compare s = default (te_compare E) (last (omap (fun o => match o with OptCompare f => Some f | _ => None end) topts)) /\
  (forall t, sc_types s t = None <-> forall h, h ∈ app -> t ∉ h_produced h /\ t ∉ h_consumed h) /\
  (forall t, sc_types s t = Some true <-> exists h, h ∈ app /\ t ∈ h_produced h).
Proof.
  intros P E app u wall topts p a e k st Hv. split_and!.
  - intros f env. split.
    + intros Hc. destruct f; cbn in Hc; try discriminate Hc; try (injection Hc as ->; eauto 10).
      destruct a as [m|step|fn i]; cbn in Hc; try discriminate Hc. injection Hc as ->. right. right. right. right. split; eauto.
    + intros [(?&?&?&?&->)|[(?&?&->)|[(?&?&?&?&->)|[(?&?&?&?&->)|((fn & i & ->) & ? & ? & ? & ->)]]]]; done.
  - cbn. rewrite (visits_compare _ _ _ _ _ _ Hv). by rewrite begin_compare.
  - intros t. apply app_types_none.
  - intros t. apply app_types_produced.
Qed.
Print Assumptions C81_scope.

(** ExecuteCommand() and RecordEvent() of a message no handler consumes or produces fail
    the test without anything being dispatched. *)
Theorem C81_unrecognised : forall {P : Params} E c m st,
  (forall h, h ∈ c_app c -> m_type m ∉ h_produced h /\ m_type m ∉ h_consumed h) ->
  prepare E (do_action E c (ActDispatch m)) st
    = (set_failed st, [TvDo AkDispatch; TvDid AkDispatch; TvFatal (TUnrecognised m)], stop E) /\
  forall e st' evs r, expect E c AkDispatch (do_action E c (ActDispatch m)) e st = (st', evs, r) -> TvFatal (TUnrecognised m) ∉ evs ->
    impossible (test_scope E c AkDispatch st) e \/ exists v, r = Panicked v.
Proof.
  intros P E c m st Hm. apply app_types_none in Hm.
  assert (Hd : forall o st1, do_action E c (ActDispatch m) o st1 = (st1, [TvDo AkDispatch; TvDid AkDispatch], AErr (TUnrecognised m))).
  { intros o st1. cbn [do_action]. unfold do_dispatch. by rewrite Hm. }
  split; [unfold prepare; by rewrite Hd|].
  intros e st' evs r Hx Hno. unfold expect in Hx. destruct (new_predicate _ _) as [q|er] eqn:Ep.
  2:{ left. apply PropsExpect.C50_rejected. by exists er. }
  rewrite Hd in Hx. destruct (p_done _) as [q1 [v|]]; cbn in Hx.
  - right. injection Hx as _ _ <-. eauto.
  - injection Hx as _ <- _. exfalso. apply Hno. cbn. right. right. right. right. by left.
Qed.
Print Assumptions C81_unrecognised.

(** Those of other messages perform one Dispatch() of that very message. *)
Theorem C81_dispatch : forall {P : Params} E c m o st st' evs r,
  (exists h, h ∈ c_app c /\ (m_type m ∈ h_produced h \/ m_type m ∈ h_consumed h)) ->
  do_action E c (ActDispatch m) o st = (st', evs, r) ->
  exists or fuel fs, evs = TvDo AkDispatch :: TvOp (OpDispatch or fuel m o) fs :: match r with AHalt => [] | _ => [TvDid AkDispatch] end /\
    exists es evs' x, run_op c (OpDispatch or fuel m o) (ts_eng st) = (es, evs', x) /\ fs = ev_facts evs' /\ ts_eng st' = es /\
      match r with AOk => x = Ok [] | AErr er => exists es', x = Ok es' /\ er = TEngine es' | APan v => x = Pan v | AGoexit => False | AHalt => x = Fuel \/ exists v, x = Pan (PFatal v) end.
Proof.
  intros P E c m o st st' evs r (h & Hh & Ht) Hx. cbn [do_action] in Hx. unfold do_dispatch in Hx.
  destruct (app_types c (m_type m)) eqn:Ea.
  2:{ exfalso. destruct (proj1 (app_types_none c (m_type m)) Ea h Hh) as [H1 H2]. by destruct Ht. }
  unfold engine_op in Hx. destruct (run_op _ _ _) as [[es evs'] x] eqn:Er. cbn [bracket] in Hx. injection Hx as <- <- Hr.
  do 3 eexists. split; [by rewrite Hr|]. do 3 eexists. split; [exact Er|]. split; [done|]. split; [done|].
  subst r. destruct x as [[|er ers]|v|]; cbn; eauto. destruct v; cbn; eauto.
Qed.
Print Assumptions C81_dispatch.

(** ** The hypotheses can be met *)

(** A test given two comparators; its Expect() comes after a Call. *)
Definition cmp_test : TProg :=
  TPrepare (ActCall (TExecute (body "Open" 6) (fun _ => TRet)) None) (fun _ =>
  TExpect (ActDispatch (command "Open" 2)) (XMessage (command "Open" 6)) (fun _ => TRet)).
Definition always : Msg -> Msg -> bool := fun _ _ => true.
Definition never : Msg -> Msg -> bool := fun _ _ => false.
Definition cmp_opts : list TOpt := [OptCompare always; OptCompare never; OptStart 5].
Example C81_scope_example : exists st,
  visits demo_env (test_config demo_app) cmp_test (begin demo_app [] 100 cmp_opts)
    (TExpect (ActDispatch (command "Open" 2)) (XMessage (command "Open" 6)) (fun _ => TRet)) st /\
  sc_compare (test_scope demo_env (test_config demo_app) AkDispatch st) = never.
Proof.
  assert (H : exists st, visits demo_env (test_config demo_app) cmp_test (begin demo_app [] 100 cmp_opts)
    (TExpect (ActDispatch (command "Open" 2)) (XMessage (command "Open" 6)) (fun _ => TRet)) st).
  { set (x := prepare demo_env (do_action demo_env (test_config demo_app) (ActCall (TExecute (body "Open" 6) (fun _ => TRet)) None)) (begin demo_app [] 100 cmp_opts)).
    assert (Hg : goes_on x.2 None) by (vm_compute; reflexivity). destruct x as [[st evs] r] eqn:Ex. exists st.
    apply (vi_prepare _ _ _ _ _ st evs r None _ _ Ex Hg). apply vi_here. }
  destruct H as [st H]. exists st. split; [exact H|]. exact (proj1 (proj2 (C81_scope _ _ _ _ _ _ _ _ _ _ H))).
Qed.
Example C81_unrecognised_example : forall h, h ∈ c_app (test_config demo_app) ->
  m_type (command "Unheard" 1) ∉ h_produced h /\ m_type (command "Unheard" 1) ∉ h_consumed h.
Proof. apply app_types_none. vm_compute. reflexivity. Qed.
Example C81_dispatch_example : exists h, h ∈ c_app (test_config demo_app) /\
  (m_type (command "Open" 1) ∈ h_produced h \/ m_type (command "Open" 1) ∈ h_consumed h).
Proof. exists hAgg. split; [left|]. right. vm_compute. left. Qed.
