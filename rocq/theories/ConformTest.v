(** * Conformance of the models of Test and of its actions with the repository's tests

    Hand transcriptions of action.{advancetime,call,dispatch.command,dispatch.event}_test.go,
    test_test.go, testoption_test.go and executor_test.go of the root package.  They are
    tests of the model on literals, not proofs of properties.  Not transcribed: locations.
    Where a test sees that a handler is called, the Example looks at the facts, which say
    so. *)
From Verif Require Import ConformBase.
From Verif Require Import TestModel FrontModel LogModel.

Definition ct_run (app : list Handler) (opts : list TOpt) (p : TProg) :=
  run_test (env app) (test_config app) p (begin app tt 0 opts).
Definition ct_facts (app : list Handler) (opts : list TOpt) (p : TProg) : list Fact :=
  concat (map (fun ev => match ev with TvOp _ fs => fs | _ => [] end) (ct_run app opts p).1.2).
Definition ct_fatals (app : list Handler) (opts : list TOpt) (p : TProg) : list text :=
  omap (fun ev => match ev with TvFatal e => Some (terr_text all_texts e) | _ => None end) (ct_run app opts p).1.2.
Definition ct_failed (app : list Handler) (opts : list TOpt) (p : TProg) : bool :=
  ts_failed (ct_run app opts p).1.1.
(** A panic of one of the test's methods goes on to the caller. *)
Definition ct_k (p : TProg) : option PVal -> TProg := fun v => match v with Some v => TPanic v | None => p end.
Definition ct_prepare (a : Action) (p : TProg) : TProg := TPrepare a (ct_k p).
Definition ct_caption (a : EAct) : option text :=
  match eval_action fmt a with inl (_, s) => Some s | inr _ => None end.
Definition ct_panics (a : EAct) : option text :=
  match eval_action fmt a with inr (CSays s) => Some s | _ => None end.

(** BeginContext(): aggregates and processes are on. *)
Definition ct_types : ETypes := mkETypes true true false false.
Definition ct_begun (fs : list Fact) : list (Z * ETypes) :=
  omap (fun f => match f with
                 | TickCycleBegun t ty _ => Some (t, ty)
                 | DispatchCycleBegun _ t ty _ => Some (t, ty)
                 | _ => None end) fs.
Definition ct_start : Z := 1000000000000.
Definition ct_second : Z := 1000000000.

(** ** action.advancetime_test.go *)

(** :49-67: the virtual time is kept between actions. *)
Example conform_advance_twice :
  ct_begun (ct_facts [] [OptStart ct_start; OptUnsafe [OptObserver 1]]
    (ct_prepare (ActAdvance (JBy ct_second)) (ct_prepare (ActAdvance (JBy ct_second)) TRet)))
  = [((ct_start + ct_second)%Z, ct_types); ((ct_start + 2 * ct_second)%Z, ct_types)].
Proof. vm_compute. reflexivity. Qed.

(** :69-87: reversing time fails the test. *)
Example conform_advance_reverse :
  let p := ct_prepare (ActAdvance (JTo (ct_start - ct_second))) TRet in
  ct_failed [] [OptStart ct_start] p = true
  /\ ct_fatals [] [OptStart ct_start] p
     = [(txt "adjusting the clock to " ++ fm_time fmt (ct_start - ct_second) ++ txt " would reverse time")%list].
Proof. split; vm_compute; reflexivity. Qed.

(** :89-93, 169-173: panics. *)
Example conform_advance_panics :
  ct_panics (EAdvance None) = Some (txt "AdvanceTime(<nil>): adjustment must not be nil")
  /\ ct_panics (EAdvance (Some (JBy (-1))))
     = Some (txt "ByDuration(" ++ fm_duration fmt (-1) ++ txt "): duration must not be negative")%list.
Proof. split; vm_compute; reflexivity. Qed.

(** :109-126, 140-157: the tick takes place at the new time. *)
Example conform_advance_ticks :
  ct_begun (ct_facts [] [OptStart ct_start] (ct_prepare (ActAdvance (JTo (9 * ct_start))) TRet))
    = [((9 * ct_start)%Z, ct_types)]
  /\ ct_begun (ct_facts [] [OptStart ct_start] (ct_prepare (ActAdvance (JBy (3 * ct_second))) TRet))
    = [((ct_start + 3 * ct_second)%Z, ct_types)].
Proof. split; vm_compute; reflexivity. Qed.

(** :159-167: the caption. *)
Example conform_advance_caption :
  ct_caption (EAdvance (Some (JBy (3 * ct_second)))) = Some (txt "advancing time by 3s").
Proof. vm_compute. reflexivity. Qed.

(** ** action.call_test.go *)

Definition ct_int (f : Msg -> list Body) : Handler :=
  mkHandler "<integration>" (integ f) [com "TypeA"] [eve "TypeA"] false.
Definition ct_app : list Handler := [ct_int (fun _ => [])].
Definition ct_a1 : Body := body (Com "TypeA") (CStr "A1").
Definition ct_x1 : Body := body (Com "TypeX") (CStr "X1").
Definition ct_exec : TProg := TExecute ct_a1 (fun r => match r with inr v => TPanic v | _ => TRet end).
Definition ct_cycle : list (Env * Z * ETypes * nat) :=
  [(mkEnv "1" "1" "1" (mkMsg KCommand ct_a1) ct_start 0 None, ct_start, ct_types, 0)].
Definition ct_cycles (fs : list Fact) : list (Env * Z * ETypes * nat) :=
  omap (fun f => match f with DispatchCycleBegun e t ty hs => Some (e, t, ty, size hs) | _ => None end) fs.

(** :58-89: the test's executor. *)
Example conform_call_executor :
  ct_cycles (ct_facts ct_app [OptStart ct_start] (ct_prepare (ActCall ct_exec None) TRet)) = ct_cycle.
Proof. vm_compute. reflexivity. Qed.

(** :91-103: expectations match its commands. *)
Definition ct_expect (app : list Handler) (opts : list TOpt) (a : Action) (e : EExp) : option bool :=
  match eval fmt e with
  | inl (BExp x _) => Some (negb (ct_failed app opts (TExpect a x (ct_k TRet))))
  | _ => None
  end.
Example conform_call_expect :
  ct_expect ct_app [OptStart ct_start] (ActCall ct_exec None) (EMessage true (Some ct_a1)) = Some true.
Proof. vm_compute. reflexivity. Qed.

(** :105-119: the caption and the panic. *)
Example conform_call_texts :
  ct_caption (ECall (Some TRet) []) = Some (txt "calling user-defined function")
  /\ ct_panics (ECall None []) = Some (txt "Call(<nil>): function must not be nil").
Proof. split; vm_compute; reflexivity. Qed.

(** ** action.dispatch.command_test.go, action.dispatch.event_test.go *)

(** command :58-82: the message is dispatched. *)
Definition ct_execute : Action := ActDispatch (mkMsg KCommand ct_a1).
Example conform_dispatch :
  ct_cycles (ct_facts ct_app [OptStart ct_start] (ct_prepare ct_execute TRet)) = ct_cycle.
Proof. vm_compute. reflexivity. Qed.

(** command :84-95: types that are not known. *)
Example conform_dispatch_unknown :
  let p := ct_prepare (ActDispatch (mkMsg KCommand ct_x1)) TRet in
  ct_failed ct_app [] p = true
  /\ ct_fatals ct_app [] p
     = [txt "cannot execute command, stubs.CommandStub[TypeX] is a not a recognized message type"].
Proof. split; vm_compute; reflexivity. Qed.

(** command :97-106: an action does not meet its own expectation. *)
Example conform_dispatch_own :
  ct_expect ct_app [] ct_execute (EMessage true (Some ct_a1)) = Some false.
Proof. vm_compute. reflexivity. Qed.

(** command :108-122, event :115-129: the captions and the panics. *)
Example conform_dispatch_texts :
  ct_caption (EDispatch true (Some ct_a1)) = Some (txt "executing stubs.CommandStub[TypeA] command")
  /\ ct_panics (EDispatch true None) = Some (txt "ExecuteCommand(<nil>): message must not be nil")
  /\ ct_caption (EDispatch false (Some (body (Eve "TypeA") (CStr "A1"))))
     = Some (txt "recording stubs.EventStub[TypeA] event")
  /\ ct_panics (EDispatch false None) = Some (txt "RecordEvent(<nil>): message must not be nil").
Proof. repeat split; vm_compute; reflexivity. Qed.
(** event :65-102: the event is dispatched to a process, or not known. *)
Definition ct_proc : list Handler :=
  [mkHandler "<process>" (proc (fun _ => [])) [eve "TypeA"] [com "TypeA"] false].
Definition ct_ea1 : Body := body (Eve "TypeA") (CStr "A1").
Example conform_dispatch_event :
  ct_cycles (ct_facts ct_proc [OptStart ct_start] (ct_prepare (ActDispatch (mkMsg KEvent ct_ea1)) TRet))
    = [(mkEnv "1" "1" "1" (mkMsg KEvent ct_ea1) ct_start 0 None, ct_start, ct_types, 0)]
  /\ ct_fatals ct_proc [] (ct_prepare (ActDispatch (mkMsg KEvent (body (Eve "TypeX") (CStr "X1")))) TRet)
     = [txt "cannot record event, stubs.EventStub[TypeX] is a not a recognized message type"].
Proof. split; vm_compute; reflexivity. Qed.

(** ** test_test.go *)

(** Which handlers were called, and which skipped. *)
Definition ct_handled (fs : list Fact) : list (string * bool) :=
  omap (fun f => match f with
                 | HandlingBegun h _ => Some (hid_name h, true)
                 | HandlingSkipped h _ _ => Some (hid_name h, false)
                 | _ => None end) fs.
Definition ct_proj (off : bool) : list Handler := [mkHandler "<projection>" proj [eve "TypeA"] [] off].
Definition ct_agg : list Handler :=
  [mkHandler "<aggregate>" (agg (fun _ => [])) [com "TypeA"] [eve "TypeA"] false].
Definition ct_record : Action := ActDispatch (mkMsg KEvent ct_ea1).
(** The regular expressions ^\<proj and ^\<agg. *)
Definition ct_like (s : string) : option (string -> bool) := Some (String.prefix s).

(** :16-53: an action that fails makes the test fail. *)
Example conform_test_error :
  let ua := mkUA None (inl "[no-op]") inl (fun _ => UDone (Some (TUser "<error>"))) in
  ts_failed (run_u (env []) (test_config []) (UPrepare ua (fun _ => UDone None)) (begin [] tt 0 [])).1.1 = true
  /\ (forall x s, eval fmt pass = inl (BExp x s) ->
      ts_failed (run_u (env []) (test_config []) (UExpect ua x (fun _ => UDone None)) (begin [] tt 0 [])).1.1 = true).
Proof. split; [vm_compute; reflexivity|]. intros x s [= <- <-]. vm_compute. reflexivity. Qed.

(** :56-86: EnableHandlers(); projections are off otherwise. *)
Example conform_test_enable :
  ct_handled (ct_facts (ct_proj false) [] (TEnable ["<projection>"] true (ct_k (ct_prepare ct_record TRet))))
    = [("<projection>", true)]
  /\ ct_handled (ct_facts (ct_proj false) [] (ct_prepare ct_record TRet)) = [("<projection>", false)].
Proof. split; vm_compute; reflexivity. Qed.

(** :88-121, 225-236: names of no handler, handlers off by configuration. *)
Definition ct_out (app : list Handler) (p : TProg) : TOut := (ct_run app [] p).2.
Example conform_test_enable_panics :
  ct_out [] (TEnable ["<projection>"] true (ct_k TRet))
    = Panicked (PEngine "the application does not have a handler named" None)
  /\ ct_out (ct_proj true) (TEnable ["<projection>"] true (ct_k TRet))
    = Panicked (PEngine "cannot enable the handler" None)
  /\ ct_out [] (TEnable ["<projection>"] false (ct_k TRet))
    = Panicked (PEngine "the application does not have a handler named" None).
Proof. repeat split; vm_compute; reflexivity. Qed.

(** :125-190, 271-282: EnableHandlersLike() and its panics. *)
Example conform_test_enable_like :
  ct_handled (ct_facts (ct_proj false) [] (TEnableLike [ct_like "<proj"] true (ct_k (ct_prepare ct_record TRet))))
    = [("<projection>", true)]
  /\ ct_out [] (TEnableLike [ct_like "<proj"] true (ct_k TRet))
    = Panicked (PEngine "the application does not have any handlers with names that match" None)
  /\ ct_out (ct_proj true) (TEnableLike [ct_like "<proj"] true (ct_k TRet))
    = Panicked (PEngine "the application does not have any handlers with names that match" None)
  /\ ct_out [] (TEnableLike [ct_like "<proj"] false (ct_k TRet))
    = Panicked (PEngine "the application does not have any handlers with names that match" None).
Proof. repeat split; vm_compute; reflexivity. Qed.

(** :194-223, 240-269: DisableHandlers() and DisableHandlersLike(). *)
Example conform_test_disable :
  ct_handled (ct_facts ct_agg [] (TEnable ["<aggregate>"] false (ct_k (ct_prepare ct_execute TRet))))
    = [("<aggregate>", false)]
  /\ ct_handled (ct_facts ct_agg [] (TEnableLike [ct_like "<agg"] false (ct_k (ct_prepare ct_execute TRet))))
    = [("<aggregate>", false)]
  /\ ct_handled (ct_facts ct_agg [] (ct_prepare ct_execute TRet)) = [("<aggregate>", true)].
Proof. repeat split; vm_compute; reflexivity. Qed.

(** ** testoption_test.go *)

(** :16-55: StartTimeAt(): the projection sees the time as RecordedAt(). *)
Definition ct_proj_at (t : Z) : list Handler :=
  [mkHandler "<handler-name>"
     (ImplProj {| pj_version _ u := (u, inl ("", None));
                  pj_handle _ _ _ t' _ := if decide (t' = t) then JLog "called" (JRet (true, None)) else JPanic PNil;
                  pj_close _ u := (u, inl None); pj_compact _ := JRet None |}) [eve "TypeA"] [] false].
Example conform_start_time :
  let p := TEnable ["<handler-name>"] true (ct_k (ct_prepare ct_record TRet)) in
  (ct_run (ct_proj_at ct_start) [OptStart ct_start] p).2 = Done
  /\ omap (fun f => match f with MessageLoggedByProjection _ _ s => Some s | _ => None end)
       (ct_facts (ct_proj_at ct_start) [OptStart ct_start] p) = ["called"].
Proof. split; vm_compute; reflexivity. Qed.

(** :59-99: WithMessageComparator(). *)
Definition ct_rec : list Handler :=
  [mkHandler "<handler-name>" (integ (fun _ => [ct_ea1])) [com "TypeA"] [eve "TypeA"] false].
Definition ct_expect_on (opts : list TOpt) (a : Action) (e : EExp) : option bool :=
  match eval fmt e with
  | inl (BExp x _) =>
      Some (negb (ct_failed ct_rec opts (TEnable ["<handler-name>"] true (ct_k (TExpect a x (ct_k TRet))))))
  | _ => None
  end.
Example conform_comparator :
  ct_expect_on [OptCompare (fun _ _ => true)] ct_execute (EMessage false (Some (body (Eve "TypeA") (CStr "A2"))))
    = Some true
  /\ ct_expect_on [] ct_execute (EMessage false (Some (body (Eve "TypeA") (CStr "A2")))) = Some false.
Proof. split; vm_compute; reflexivity. Qed.

(** ** executor_test.go *)

Definition ct_nothing : Interceptor := fun _ => IRet None.
Definition ct_err : option TErr := Some (TUser "<error>").
Definition ct_and_error : Interceptor := fun b =>
  if decide (b = ct_a1) then INext b (fun r => match r with inl None => IRet ct_err | _ => IPanic PNil end)
  else IPanic PNil.
(** A function that demands what ExecuteCommand() returns. *)
Definition ct_is_error (r : XRes) : bool := match r with inl (Some (TUser "<error>")) => true | _ => false end.
Definition ct_is_nil (r : XRes) : bool := match r with inl None => true | _ => false end.
Definition ct_demands (f : XRes -> bool) : TProg := TExecute ct_a1 (fun r => if f r then TRet else TPanic PNil).
Definition ct_recorded : EExp := EMessage false (Some ct_ea1).

(** :72-76: no function. *)
Example conform_intercept_nil :
  ct_panics (ECall (Some TRet) [None]) = Some (txt "InterceptCommandExecutor(<nil>): function must not be nil").
Proof. vm_compute. reflexivity. Qed.

(** :79-98, 102-123: as an option of the test, and of the call. *)
Example conform_intercept :
  ct_expect_on [OptIntercept ct_and_error] (ActCall (ct_demands ct_is_error) None) ct_recorded = Some true
  /\ ct_expect_on [] (ActCall (ct_demands ct_is_error) (Some ct_and_error)) ct_recorded = Some true.
Proof. split; vm_compute; reflexivity. Qed.

(** :125-152, 154-181: it is removed, or the test's own put back, after the call. *)
Example conform_intercept_restored :
  (ct_run ct_rec [] (ct_prepare (ActCall (ct_demands ct_is_error) (Some ct_and_error))
                    (ct_prepare (ActCall (ct_demands ct_is_nil) None) TRet))).2 = Done
  /\ (ct_run ct_rec [OptIntercept ct_and_error]
                    (ct_prepare (ActCall (ct_demands ct_is_nil) (Some ct_nothing))
                    (ct_prepare (ActCall (ct_demands ct_is_error) None) TRet))).2 = Done.
Proof. split; vm_compute; reflexivity. Qed.
