(** * C82: concurrent use of a CommandExecutor. *)
From Verif Require Import ExecSpec ExecLemmas ExecDemo.

Section PropsExec.
Context {B M R I : Type} (engine : B -> nat) (icpt : I -> option R -> M -> B -> Prog B M R I) (handle : B -> M -> Prog B M R I).
Context (b0 : option B) (i0 : option I) (ps : list (Prog B M R I)).
Notation Ev := (nat * nat * Label B M R I)%type.
Notation runs := (runs engine icpt handle (sys_init b0 i0 ps)).

(** While a call of ExecuteCommand is in progress, in whatever goroutine, no call of Bind,
    Unbind or Intercept takes effect: the executor stays bound to the same engine and
    keeps its interceptor, and Unbind takes effect only when no command is being executed. *)
Theorem C82_in_progress pre (mid : list Ev) t d ctx m y :
  runs (pre ++ (t, d, LExec ctx m) :: mid) y -> unended t d mid ->
  (forall t' d' w, (t', d', LWrite w) ∉ mid) /\
  bound b0 (pre ++ (t, d, LExec ctx m) :: mid) = bound b0 pre /\
  installed i0 (pre ++ (t, d, LExec ctx m) :: mid) = installed i0 pre.
Proof.
  intros H Hun. assert (Hno := no_write engine icpt handle b0 i0 ps _ _ _ _ _ _ _ _ H eq_refl Hun). split; [done|].
  split.
  - rewrite bound_app. unfold bound at 1. cbn [foldl]. cbn. by apply bound_quiet.
  - rewrite installed_app. unfold installed at 1. cbn [foldl]. cbn. by apply installed_quiet.
Qed.

(** What the next thing is that ExecuteCommand does depends on the binding and the
    interceptor when it was called: without a binding it panics, otherwise the interceptor
    is called with the binding's engine; without an interceptor the engine handles the
    command, unless the context ends first. *)
Theorem C82_outcome pre (mid : list Ev) t d ctx m d' l y :
  runs (pre ++ (t, d, LExec ctx m) :: mid ++ [(t, d', l)]) y -> idle t mid ->
  l = LFound match bound b0 pre, installed i0 pre with
             | None, _ => OOutside
             | Some b, Some i => OIntercept i b
             | Some b, None => OForward b
             end.
Proof.
  intros H Hid. rewrite app_comm_cons, app_assoc in H. apply runs_last in H as (y1 & H1 & Hs).
  assert (Hv := runs_inv _ _ _ _ _ _ _ _ H1). destruct Hv as [_ Hb Hi _ Hr _].
  destruct (Hr _ _ _ _ _ _ eq_refl Hid) as (stk & Hth & _).
  destruct (C82_in_progress _ _ _ _ _ _ _ H1) as (_ & Eb & Ei); [by intros r Hin; apply Hid in Hin|].
  inversion Hs as [s ths t1 th1 l1 s' th' Ht Hstep E1 E2]; subst. cbn in *. rewrite Hth in Ht. injection Ht as <-.
  inversion Hstep; subst. cbn in *. rewrite <- Eb, <- Ei. rewrite <- Hb, <- Hi. unfold outcome. by destruct b, i.
Qed.
(** What it does then: it panics, or runs the code of the interceptor with its own context,
    the command and the engine, or the engine's ExecuteCommand. *)
Theorem C82_then pre (mid1 mid2 : list Ev) t d ctx m d1 o y :
  runs (pre ++ (t, d, LExec ctx m) :: mid1 ++ (t, d1, LFound o) :: mid2) y -> idle t mid1 -> idle t mid2 ->
  exists stk, sy_threads y !! t = Some (mkThread (CRun match o with
    | OOutside => GRet Outside
    | OIntercept i b => icpt i ctx m b
    | OForward b => GDispatch ctx b m GRet
    end) stk).
Proof.
  intros H Hid1 Hid2. destruct (runs_inv _ _ _ _ _ _ _ _ H) as [_ _ _ _ _ Hf].
  destruct (Hf _ _ _ _ _ _ _ _ _ eq_refl Hid1 Hid2) as (stk & Hth & _). exists stk. by destruct o.
Qed.
Theorem C82_then_event pre (mid1 mid2 : list Ev) t d ctx m d1 o d2 l y :
  runs (pre ++ (t, d, LExec ctx m) :: mid1 ++ (t, d1, LFound o) :: mid2 ++ [(t, d2, l)]) y -> idle t mid1 -> idle t mid2 ->
  match o with
  | OOutside => l = LExecEnd Outside
  | OForward b => l = LEngine ctx b m \/ exists e, ctx = Some e /\ l = LGiveUp e
  | OIntercept _ _ => True
  end.
Proof.
  intros H Hid1 Hid2.
  replace (pre ++ (t, d, LExec ctx m) :: mid1 ++ (t, d1, LFound o) :: mid2 ++ [(t, d2, l)]) with ((pre ++ (t, d, LExec ctx m) :: mid1 ++ (t, d1, LFound o) :: mid2) ++ [(t, d2, l)]) in H
    by (rewrite <- app_assoc; cbn; rewrite <- app_assoc; done).
  apply runs_last in H as (y1 & H1 & Hs). destruct (runs_inv _ _ _ _ _ _ _ _ H1) as [_ _ _ _ _ Hf].
  destruct (Hf _ _ _ _ _ _ _ _ _ eq_refl Hid1 Hid2) as (stk & Hth & _ & k & Hk).
  inversion Hs as [s ths t1 th1 l1 s' th' Ht Hstep E1 E2]; subst. cbn in *. rewrite Hth in Ht. injection Ht as <-.
  destruct o as [|i b|b]; [|done|]; inversion Hstep; subst; cbn in *; eauto. done.
Qed.

(** If no interceptor uses the executor it was given to (the engine it is given it may use)
    and handlers use neither an executor nor an engine, then in every reachable state all
    goroutines have ended or one can go on, and every schedule ends. *)
Theorem C82_no_deadlock tr y :
  (forall i ctx m b, plain (icpt i ctx m b)) -> (forall b m, quiet (handle b m)) ->
  runs tr y -> finished y \/ exists e y', step engine icpt handle y e y'.
Proof. intros Hi Hh. by apply progress. Qed.
Theorem C82_finite (y : nat -> Sys B M R I) :
  (forall i ctx m b, plain (icpt i ctx m b)) -> (forall b m, quiet (handle b m)) ->
  y 0 = sys_init b0 i0 ps -> ~ forall k, exists e, step engine icpt handle (y k) e (y (1 + k)).
Proof. intros Hi Hh. by apply finite. Qed.

(** The Call action, with whatever other goroutines use the executor meanwhile and after:
    commands its function executes are handled by the test's engine, through its
    interceptor if it has one, otherwise through the one installed before; when it has
    ended, the executor is unbound and has the interceptor it had before. *)
Theorem C82_call b on fn others tr y :
  (forall i ctx m b, no_writes (icpt i ctx m b)) -> (forall b m, no_writes (handle b m)) ->
  no_writes fn -> Forall no_writes others ->
  ExecModel.runs engine icpt handle (sys_init b0 i0 (call_prog b on fn GRet :: others)) tr y ->
  (forall d o, (0, d, LFound o) ∈ tr ->
     o = match match on with Some i => Some i | None => i0 end with Some i => OIntercept i b | None => OForward b end) /\
  (ended y 0 -> bound b0 tr = None /\ installed i0 tr = i0).
Proof.
  intros Hi Hh Hf Ho H.
  eapply (script engine icpt handle b0 i0 (call_prog b on fn GRet :: others) Hi Hh
    (fun o => o = match match on with Some i => Some i | None => i0 end with Some i => OIntercept i b | None => OForward b end)
    (fun bd ic => bd = None /\ ic = i0) 0 tr y (call_prog b on fn GRet)); [exact H|done| |].
  - unfold call_prog. apply sa_write. cbn. destruct on as [i|].
    + apply sa_write. cbn. apply safe_then; [by destruct i0|done|]. intros r. apply sa_write. cbn. apply sa_write. cbn. by apply sa_ret.
    + apply safe_then; [by destruct i0|done|]. intros r. apply sa_write. cbn. by apply sa_ret.
  - intros [|t] q Hn Hq; [done|]. cbn in Hq. exact (proj1 (Forall_lookup _ _) Ho _ _ Hq).
Qed.
End PropsExec.
Print Assumptions C82_in_progress.
Print Assumptions C82_outcome.
Print Assumptions C82_then.
Print Assumptions C82_then_event.
Print Assumptions C82_call.
Print Assumptions C82_no_deadlock.
Print Assumptions C82_finite.

(** ** Examples
    Bindings are engines; commands, errors and interceptors are numbers. *)
Notation UProg := (Prog nat nat nat nat).
Definition eng (b : nat) : nat := b.
Definition good_icpt (i : nat) (ctx : option nat) (m b : nat) : UProg := GStep (GDispatch ctx b m (fun r => GStep (GRet r))).
Definition good_handle (b m : nat) : UProg := GStep (GRet (Returned m)).
(** Goroutine 0 performs a Call action whose function starts goroutine 1 and does not wait
    for it; goroutine 1 executes two commands. *)
Definition call0 : UProg := call_prog 7 (Some 3) (GExec None 1 (fun r => GRet r)) GRet.
Definition left1 : UProg := GExec None 5 (fun _ => GExec None 6 GRet).
Example C82_example_hyps : (forall i ctx m b, plain (good_icpt i ctx m b)) /\ (forall b m, quiet (good_handle b m)).
Proof. split; intros; repeat constructor. Qed.
(** Goroutine 1's first call begins while the action is bound; restoring the interceptor
    and Unbind wait for its end; its second call comes too late. *)
Definition sched1 : list (nat * bool) :=
  (fun t => (t, false)) <$> [0; 0; 0; 0; 0; 0; 0; 0; 1; 1; 0; 0; 0; 0; 0; 0; 0; 0; 0; 1; 1; 1; 1; 1; 1; 0; 0; 0; 0; 0; 0; 0; 1; 1; 1].
Definition trace1 : list (nat * nat * Label nat nat nat nat) :=
  [(0, 0, LWait); (0, 0, LLock); (0, 0, LWrite (WBind 7)); (0, 0, LUnlock);
   (0, 0, LWait); (0, 0, LLock); (0, 0, LWrite (WIntercept (Some 3))); (0, 0, LUnlock);
   (1, 0, LExec None 5); (1, 1, LFound (OIntercept 3 7));
   (0, 0, LExec None 1); (0, 1, LFound (OIntercept 3 7)); (0, 1, LStep); (0, 1, LEngine None 7 1); (0, 2, LStep); (0, 1, LEngineEnd (Returned 1)); (0, 1, LStep); (0, 0, LExecEnd (Returned 1));
   (0, 0, LWait);
   (1, 1, LStep); (1, 1, LEngine None 7 5); (1, 2, LStep); (1, 1, LEngineEnd (Returned 5)); (1, 1, LStep); (1, 0, LExecEnd (Returned 5));
   (0, 0, LLock); (0, 0, LWrite (WIntercept None)); (0, 0, LUnlock);
   (0, 0, LWait); (0, 0, LLock); (0, 0, LWrite WUnbind); (0, 0, LUnlock);
   (1, 0, LExec None 6); (1, 1, LFound OOutside); (1, 0, LExecEnd Outside)].
Lemma sched_trace (icpt : nat -> option nat -> nat -> nat -> UProg) (handle : nat -> nat -> UProg) y0 sc tr :
  fst <$> sched eng icpt handle sc [] y0 = Some tr -> exists y, sched eng icpt handle sc [] y0 = Some (tr, y) /\ runs eng icpt handle y0 tr y.
Proof.
  destruct (sched eng icpt handle sc [] y0) as [[tr' y]|] eqn:E; [|done]. cbn. intros [= ->]. exists y. split; [done|].
  eapply sched_ok; [constructor|exact E].
Qed.
Example C82_example_run : exists y, runs eng good_icpt good_handle (sys_init None None [call0; left1]) trace1 y /\ finished y.
Proof.
  destruct (sched_trace good_icpt good_handle (sys_init None None [call0; left1]) sched1 trace1) as (y & E & Hr); [by vm_compute|].
  exists y. split; [done|]. assert (Hth : option_map (fun x => sy_threads x.2) (sched eng good_icpt good_handle sched1 [] (sys_init None None [call0; left1])) =
    Some [mkThread (CRun (GRet (Returned 1))) []; mkThread (CRun (GRet Outside)) []]) by by vm_compute.
  rewrite E in Hth. cbn in Hth. unfold finished. injection Hth as ->. repeat constructor; eauto.
Qed.
(** The hypotheses of C82_call hold for it. *)
Example C82_example_call : (forall i ctx m b, no_writes (good_icpt i ctx m b)) /\ (forall b m, no_writes (good_handle b m)) /\
  no_writes (GExec None 1 (fun r => GRet r) : UProg) /\ Forall no_writes [left1].
Proof. split; [|split; [|split]]; intros; repeat constructor; intros; repeat constructor. Qed.
(** C82_in_progress, C82_outcome and C82_then at goroutine 1's first call, which is in
    progress while goroutine 0 waits in Intercept. *)
Example C82_example_in_progress :
  bound None (take 24 trace1) = Some 7 /\ installed None (take 24 trace1) = Some 3 /\
  bound None trace1 = None /\
  exists mid, take 24 trace1 = take 8 trace1 ++ (1, 0, LExec None 5) :: mid /\ unended 1 0 mid /\ (0, 0, LWait) ∈ mid.
Proof.
  split; [done|]. split; [done|]. split; [done|]. exists (drop 9 (take 24 trace1)). split; [done|]. split.
  - intros r Hin. vm_compute in Hin. repeat (apply elem_of_cons in Hin as [Hin|Hin]; [by inversion Hin|]). by apply elem_of_nil in Hin.
  - vm_compute. do 9 right. by left.
Qed.
Example C82_example_outcome : exists mid, trace1 = take 32 trace1 ++ (1, 0, LExec None 6) :: mid ++ [(1, 1, LFound OOutside)] ++ [(1, 0, LExecEnd Outside)] /\
  mid = [] /\ bound None (take 32 trace1) = None.
Proof. by exists []. Qed.

(** ** Limits
    No deadlock does not hold for interceptors that use the executor they were given to
    instead of the one they are passed: ... *)
Definition nested_icpt (i : nat) (ctx : option nat) (m b : nat) : UProg :=
  match m with 0 => GDispatch ctx b m GRet | _ => GExec ctx 0 GRet end.
(** ... if another goroutine calls Unbind meanwhile, both wait for ever. *)
Theorem C82_interceptor_executes_refuted :
  (forall b m, quiet (good_handle b m)) /\
  exists ps tr y, runs eng nested_icpt good_handle (sys_init (Some 7) (Some 3) ps) tr y /\
    ~ finished y /\ forall e y', ~ step eng nested_icpt good_handle y e y'.
Proof.
  split; [intros; repeat constructor|]. exists [GExec None 1 GRet; GWrite WUnbind (fun _ => GRet (Returned 0))].
  destruct (sched_trace nested_icpt good_handle (sys_init (Some 7) (Some 3) [GExec None 1 GRet; GWrite WUnbind (fun _ => GRet (Returned 0))])
    [(0, false); (0, false); (1, false)] [(0, 0, LExec None 1); (0, 1, LFound (OIntercept 3 7)); (1, 0, LWait)]) as (y & E & Hr); [by vm_compute|].
  eexists _, y. split; [exact Hr|]. injection E as <-. split.
  - unfold finished. cbn. intros H. apply Forall_cons in H as [[_ H] _]. done.
  - apply jammed_ok. by vm_compute.
Qed.
Print Assumptions C82_interceptor_executes_refuted.

(** An interceptor that calls Intercept (or Bind or Unbind) waits for itself. *)
Definition replacing_icpt (i : nat) (ctx : option nat) (m b : nat) : UProg := GWrite (WIntercept None) (fun _ => GDispatch ctx b m GRet).
Theorem C82_interceptor_replaces_refuted :
  (forall b m, quiet (good_handle b m)) /\
  exists p tr y, runs eng replacing_icpt good_handle (sys_init (Some 7) (Some 3) [p]) tr y /\
    ~ finished y /\ forall e y', ~ step eng replacing_icpt good_handle y e y'.
Proof.
  split; [intros; repeat constructor|]. exists (GExec None 1 GRet).
  destruct (sched_trace replacing_icpt good_handle (sys_init (Some 7) (Some 3) [GExec None 1 GRet])
    [(0, false); (0, false); (0, false)] [(0, 0, LExec None 1); (0, 1, LFound (OIntercept 3 7)); (0, 1, LWait)]) as (y & E & Hr); [by vm_compute|].
  eexists _, y. split; [exact Hr|]. injection E as <-. split.
  - unfold finished. cbn. intros H. apply Forall_cons in H as [[_ H] _]. done.
  - apply jammed_ok. by vm_compute.
Qed.
Print Assumptions C82_interceptor_replaces_refuted.

(** A handler that executes a command through the test's executor waits for its engine. *)
Definition calling_handle (b m : nat) : UProg := GExec None 0 GRet.
Theorem C82_handler_executes_refuted :
  exists p tr y, runs eng good_icpt calling_handle (sys_init (Some 7) None [p]) tr y /\
    ~ finished y /\ forall e y', ~ step eng good_icpt calling_handle y e y'.
Proof.
  exists (GExec None 1 GRet).
  destruct (sched_trace good_icpt calling_handle (sys_init (Some 7) None [GExec None 1 GRet])
    [(0, false); (0, false); (0, false); (0, false); (0, false)]
    [(0, 0, LExec None 1); (0, 1, LFound (OForward 7)); (0, 1, LEngine None 7 1); (0, 2, LExec None 0); (0, 3, LFound (OForward 7))]) as (y & E & Hr); [by vm_compute|].
  eexists _, y. split; [exact Hr|]. injection E as <-. split.
  - unfold finished. cbn. intros H. apply Forall_cons in H as [[_ H] _]. done.
  - apply jammed_ok. by vm_compute.
Qed.
Print Assumptions C82_handler_executes_refuted.
