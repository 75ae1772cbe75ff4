(** * Tests with user-defined actions (C87). *)
From Verif Require Import ActSpec ActRefine ActScan ActExec ActProof TestLemmas TestProof TraceSpec EngineLemmas ExpectLemmas PropsExpect PropsTest Demo.
From Coq Require Import Lia.

(** The built-in actions are what user-defined ones can be: replacing them by code that
    uses the ActionScope only changes nothing that TestModel shows of a test. *)
Theorem C87_builtin : forall {P : Params} E c captions p st st' evs r,
  run_u E c (u_test c captions p) st = (st', evs, r) ->
  run_test E c p st = (st', erase evs, t_out r) /\ forall er, r <> AErr er.
Proof.
  intros P E c captions p st st' evs r H. destruct (proj1 (refine_lemma E c captions) p st st' evs r H) as [H1 H2].
  split; [done|]. intros er ->. done.
Qed.
Print Assumptions C87_builtin.

(** Whatever actions do with the engine is a history of the engine, so that what is proved
    of those is true of tests with user-defined actions as well. *)
Theorem C87_history : forall {P : Params} E app u wall topts p st evs r,
  utesting E app u wall topts p st evs r ->
  exists est fin, history (test_config app) u (u_ops evs) est (u_evs evs) fin /\
    (r <> AHalt -> est = ts_eng st /\ fin = true).
Proof. intros P E app u wall topts p st evs r H. by eapply utest_history. Qed.
Print Assumptions C87_history.

(** The options given to an action. *)
Theorem C87_options : forall {P : Params} E app u wall topts p st evs r l1 k opts l2,
  utesting E app u wall topts p st evs r -> evs = l1 ++ VDo k opts :: l2 ->
  exists obs, opts = OptNow (u_clock_at (start_time wall topts) l1) :: standing_options topts ++ u_enabled l1 ++ obs /\
    (obs = [] \/ exists n, obs = [OptObserver n]).
Proof.
  intros P E app u wall topts p st evs r l1 k opts l2 Ht He.
  destruct (utest_prefix _ _ _ _ _ _ _ _ _ Ht _ _ _ He) as (st1 & HS & [(op & fs & [=])|(st2 & Hs)]).
  destruct (utest_reads _ _ _ _ _ _ HS) as (H1 & H2 & _). inversion Hs; subst.
  exists extra. unfold action_options. rewrite H1, H2, <- app_assoc. split; [done|]. naive_solver.
Qed.
Print Assumptions C87_options.

(** Each Expect() gives ConfigurePredicate() fresh options. *)
Theorem C87_configured : forall {P : Params} E app u wall topts p st evs r l1 o l2,
  utesting E app u wall topts p st evs r -> evs = l1 ++ VConfigure o :: l2 ->
  po_compare o = given_comparator topts /\ po_match o = false.
Proof.
  intros P E app u wall topts p st evs r l1 o l2 Ht He.
  destruct (utest_prefix _ _ _ _ _ _ _ _ _ Ht _ _ _ He) as (st1 & HS & [(op & fs & [=])|(st2 & Hs)]).
  destruct (utest_reads _ _ _ _ _ _ HS) as (_ & _ & _ & _ & H5). inversion Hs; subst. cbn. done.
Qed.
Print Assumptions C87_configured.

(** The executor can be used exactly while it is bound, by whichever action. *)
Theorem C87_executor : forall {P : Params} E app u wall topts p st evs r l1 ev l2,
  utesting E app u wall topts p st evs r -> evs = l1 ++ VT ev :: l2 ->
  match ev with
  | TvExecute b => u_binding l1 <> None
  | TvOutside b => u_binding l1 = None
  | _ => True
  end.
Proof.
  intros P E app u wall topts p st evs r l1 ev l2 Ht He.
  destruct (utest_prefix _ _ _ _ _ _ _ _ _ Ht _ _ _ He) as (st1 & HS & [(op & fs & [= ->])|(st2 & Hs)]); [done|].
  destruct (utest_reads _ _ _ _ _ _ HS) as (_ & _ & H3 & _). inversion Hs; subst; try done; rewrite <- H3; congruence.
Qed.
Print Assumptions C87_executor.

(** Without an interceptor the command is dispatched to the engine at once, with the
    options that the executor was last bound with. *)
Theorem C87_executed : forall {P : Params} E app u wall topts p st evs r l1 b l2,
  utesting E app u wall topts p st evs r -> evs = l1 ++ VT (TvExecute b) :: l2 ->
  u_interceptor (first_interceptor topts) l1 = None ->
  exists opts, u_binding l1 = Some opts /\ dispatches b opts l2.
Proof.
  intros P E app u wall topts p st evs r l1 b l2 Ht -> Hi. destruct (utest_sound _ _ _ _ _ _ _ _ _ Ht) as [H _]. by eapply exec_ok_at.
Qed.
Print Assumptions C87_executed.

(** With an interceptor it is the interceptor that is called, and nothing else happens:
    the state when ExecuteCommand() is called is the one that can be read off the events. *)
Theorem C87_intercepted : forall {P : Params} E c b st st' evs r opts i,
  ts_bound st = Some opts -> ts_icpt st = Some i ->
  execute_command E c b st = (st', evs, r) ->
  exists evs', evs = TvExecute b :: evs' /\ run_icpt E c opts (i b) st = (st', evs', r).
Proof.
  intros P E c b st st' evs r opts i Hb Hi. unfold execute_command. rewrite Hb, Hi.
  destruct (run_icpt _ _ _ _ _) as [[st1 evs1] r1]. intros [= <- <- <-]. eauto.
Qed.
Print Assumptions C87_intercepted.

(** Every state that a test passes through is the one that its events tell. *)
Theorem C87_state : forall {P : Params} E app u wall topts p st evs r,
  utesting E app u wall topts p st evs r -> r <> AHalt ->
  ts_clock st = u_clock_at (start_time wall topts) evs /\
  ts_opts st = standing_options topts ++ u_enabled evs /\
  ts_bound st = u_binding evs /\
  ts_icpt st = u_interceptor (first_interceptor topts) evs /\
  ts_compare st = given_comparator topts /\
  (ts_failed st = true <-> u_failed evs).
Proof.
  intros P E app u wall topts p st evs r Ht Hr.
  destruct (utest_reads app u wall topts evs st (proj1 (utest_accepted _ _ _ _ _ _ _ _ _ Ht) Hr)) as (H1 & H2 & H3 & H4 & H5).
  split_and!; try done; by apply (utest_failed _ _ _ _ _ _ _ _ _ Ht).
Qed.
Print Assumptions C87_state.

(** Actions are nested. *)
Theorem C87_nested : forall {P : Params} E app u wall topts p st evs r,
  utesting E app u wall topts p st evs r -> r <> AHalt -> u_balanced evs.
Proof. intros P E app u wall topts p st evs r Ht Hr. by apply (utest_sound _ _ _ _ _ _ _ _ _ Ht). Qed.
Print Assumptions C87_nested.

(** Expect() and Prepare(), whatever the action does. *)
Theorem C87_expect : forall {P : Params} E c a e st st' evs r,
  u_expect E c a (do_u E c a) e st = (st', evs, r) -> UExpects E c a e st st' evs r.
Proof. intros P E c a e st st' evs r. apply expect_spec. Qed.
Print Assumptions C87_expect.

Theorem C87_prepare : forall {P : Params} E c a st st' evs r,
  u_prepare E a (do_u E c a) st = (st', evs, r) -> UPrepares E c a st st' evs r.
Proof. intros P E c a st st' evs r. apply prepare_spec. Qed.
Print Assumptions C87_prepare.

(** ** What user-defined actions can break *)

Lemma u_demo_testing topts p :
  let x := run_u demo_env (test_config demo_app) p (begin demo_app [] 100 topts) in
  utesting demo_env demo_app [] 100 topts p x.1.1 x.1.2 x.2.
Proof. split; [apply demo_env_ok|]. split; [apply demo_app_ok|]. by destruct (run_u _ _ _ _) as [[? ?] ?]. Qed.
Definition custom (do : list OOpt -> UProg) : UAction := mkUA None (inl "custom"%string) inl do.

(** C54 needs the built-in actions: the clock can be set to an earlier time. *)
Theorem C87_clock_refuted :
  exists (P : Params) E app u wall topts p st evs r,
    utesting E app u wall topts p st evs r /\ r = AOk /\ (ts_clock st < start_time wall topts)%Z /\ ts_failed st = false.
Proof.
  exists DemoP, demo_env, demo_app, [], 100%Z, [], (UPrepare (custom (fun _ => USetClock 50 (UDone None))) (fun _ => UDone None)). do 3 eexists.
  split; [apply u_demo_testing|]. split; [reflexivity|]. split; [|reflexivity]. vm_compute. reflexivity.
Qed.
Print Assumptions C87_clock_refuted.

(** C57 does too: the executor can stay bound after the action. *)
Theorem C87_bound_refuted :
  exists (P : Params) E app u wall topts p st evs r l1 b l2,
    utesting E app u wall topts p st evs r /\ evs = l1 ++ VT (TvExecute b) :: l2 /\ u_balanced l1.
Proof.
  exists DemoP. set (p := UPrepare (custom (fun opts => UBind opts (UDone None))) (fun _ => UExecute (body "Open" 4) (fun _ => UDone None))).
  set (x := run_u demo_env (test_config demo_app) p (begin demo_app [] 100 [])).
  assert (H : exists l1 l2, x.1.2 = l1 ++ VT (TvExecute (body "Open" 4)) :: l2 /\ exists opts, l1 = [VHeading "custom" None; VDo None opts; VBind opts; VDid None]).
  { eexists (_ :: _ :: _ :: _ :: []), _. split; [vm_compute; reflexivity|]. eexists. vm_compute. reflexivity. }
  destruct H as (l1 & l2 & H1 & opts & H2).
  exists demo_env, demo_app, [], 100%Z, [], p, x.1.1, x.1.2, x.2, l1, (body "Open" 4), l2. split; [apply u_demo_testing|]. split; [exact H1|].
  rewrite H2. constructor; [exact I|]. apply (ub_action None opts [VBind opts] []); [|constructor]. constructor; [exact I|constructor].
Qed.
Print Assumptions C87_bound_refuted.

(** ** Examples *)

(** An action that dispatches a command, resets the engine, binds the executor, executes a
    command through an interceptor of its own, and performs an action inside. *)
Definition busy : UAction := custom (fun opts =>
  UDispatch (command "Open" 4) opts (fun _ =>
  UReset (UClock (fun t => USetClock (t + 5) (
  UBind (opts ++ [OptNow 7]) (
  UTry (UExecute (body "Open" 6) (fun _ =>
        UIntercept (Some (fun b => INext (body "Open" 8) (fun _ => TestModel.IRet None))) (fun prev =>
        UExecute (body "Open" 1) (fun _ =>
        UIntercept prev (fun _ => UPrepare (custom (fun opts' => UTick opts' u_return)) (fun _ => UDone None))))))
       (UUnbind (UDone None)) (fun _ =>
  UExecute (body "Open" 1) (fun x => UDone None)))))))).
Definition busy_test : UProg :=
  UEnable ["int"%string] true (fun _ =>
  UExpect busy (XMessage (event "Opened" 6)) (fun _ =>
  UExpect (mkUA None (inl "loose"%string) (fun o => inl (mkPO (Some (fun _ _ => true)) true)) (fun opts => UDispatch (command "Open" 2) opts u_return)) (XMessage (event "Opened" 9)) (fun _ =>
  UExpect (custom (fun opts => UDispatch (command "Open" 2) opts u_return)) (XMessage (event "Opened" 9)) (fun _ => UDone None)))).
Definition u_tag (ev : UEv) : string :=
  match ev with
  | VT ev => tag ev | VDo _ _ => "do" | VDid _ => "did" | VHeading s _ => s | VConfigure _ => "configure" | VReset => "reset"
  | VBind _ => "bind" | VUnbind => "unbind" | VIntercept (Some _) => "intercept" | VIntercept None => "do not intercept"
  end%string.
Definition busy_out := run_u demo_env (test_config demo_app) busy_test (begin demo_app [] 100 []).
Example C87_example : u_tag <$> busy_out.1.2 =
  ["enable int"; "configure"; "custom"; "predicate"; "do"; "dispatch"; "reset"; "clock"; "bind"; "execute"; "dispatch"; "intercept"; "execute"; "dispatch";
   "do not intercept"; "custom"; "do"; "tick"; "did"; "unbind"; "outside"; "did"; "final"; "report";
   "configure"; "loose"; "predicate"; "do"; "dispatch"; "did"; "final"; "report";
   "configure"; "custom"; "predicate"; "do"; "dispatch"; "did"; "final"; "report"; "fail"]%string /\
  busy_out.2 = AGoexit /\ ts_clock busy_out.1.1 = 105%Z /\ ts_failed busy_out.1.1 = true /\
  utesting demo_env demo_app [] 100 [] busy_test busy_out.1.1 busy_out.1.2 busy_out.2.
Proof. split; [vm_compute; reflexivity|]. split; [vm_compute; reflexivity|]. split; [vm_compute; reflexivity|]. split; [vm_compute; reflexivity|]. exact (u_demo_testing [] busy_test). Qed.
(** The built-in actions. *)
Example C87_builtin_example :
  let x := run_u demo_env (test_config demo_app) (u_test (test_config demo_app) (fun _ => "action"%string) demo_test) (begin demo_app [] 100 []) in
  tag <$> erase x.1.2 = tag <$> demo_out.1.2 /\ x.2 = AGoexit.
Proof. vm_compute. done. Qed.
