(** * test.go, action.*.go, executor.go, testoption.go, engine/executor.go *)
From Verif Require Export EngineModel NoteModel ExpectModel.

Section Test.
Context {P : Params}.

(** TimeAdjustments, action.advancetime.go:54-66, 112-138: toTime, byDuration and those of the user,
    given by Description() and Step(), which may panic. *)
Inductive Adj := JTo (t : Z) | JBy (d : Z) | JUser (desc : text) (step : Z -> Z + PVal).
Definition adj_step (j : Adj) (now : Z) : Z + PVal :=
  match j with JTo t => inl t | JBy d => inl (now + d)%Z | JUser _ step => step now end.

(** Errors returned by actions and by command executors: those of the engine, of
    dispatchAction.Do (action.dispatch.go:80-86), of advanceTimeAction.Do
    (action.advancetime.go:92-97) and of interceptors; those of Predicate() are given to
    Fatal only. *)
Inductive TErr :=
| TEngine (e : Errs)
| TUnrecognised (m : Msg)
| TReverse (j : Adj)
| TUser (s : string)
| TImpossible (e : PErr).

(** What a call of a command executor results in: the error or a panic. *)
Definition XRes : Type := option TErr + PVal.

(** CommandExecutorInterceptor functions (executor.go:98-102).  [INext]: a call of the
    executor given to the interceptor.  An interceptor that uses the test's own executor
    is not modelled. *)
Inductive IProg :=
| IRet (e : option TErr)
| IPanic (v : PVal)
| IAct (f : U -> U) (k : U -> IProg)
| INext (b : Body) (k : XRes -> IProg).
Definition Interceptor : Type := Body -> IProg.

(** Actions and the code of tests, which is the body of a test as well as the function
    given to Call().  Each call of a method of the Test is followed by what happens
    next, given the panic if there was one.  [TExecute]: ExecuteCommand() of the test's
    executor.  [TPrepare]: Prepare() with one action.  [TStop]: runtime.Goexit(), such as
    by SkipNow().  [TEnableLike]: the patterns are given by what they match; [None] does
    not compile.
    User-defined actions are not modelled. *)
Inductive Action :=
| ActDispatch (m : Msg)
| ActAdvance (j : Adj)
| ActCall (fn : TProg) (i : option Interceptor)
with TProg :=
| TRet
| TPanic (v : PVal)
| TStop
| TAct (f : U -> U) (k : U -> TProg)
| TExecute (b : Body) (k : XRes -> TProg)
| TPrepare (a : Action) (k : option PVal -> TProg)
| TExpect (a : Action) (e : Exp) (k : option PVal -> TProg)
| TEnable (names : list string) (b : bool) (k : option PVal -> TProg)
| TEnableLike (pats : list (option (string -> bool))) (b : bool) (k : option PVal -> TProg)
| TAnnotate (a : Annotation) (k : TProg).

Inductive AKind := AkDispatch | AkAdvance | AkCall.
Definition a_kind (a : Action) : AKind :=
  match a with ActDispatch _ => AkDispatch | ActAdvance _ => AkAdvance | ActCall _ _ => AkCall end.

(** ExecuteCommand and RecordEvent, action.dispatch.go:15-48. *)
Definition dispatch_action (m : Msg) : Action + PVal :=
  match m_invalid m with
  | Some _ => inr (PEngine "invalid message" (Some m))
  | None => inl (ActDispatch m)
  end.
(** ToTime and ByDuration, action.advancetime.go:54-66, 112-138. *)
Definition to_time (t : Z) : Action := ActAdvance (JTo t).
Definition by_duration (d : Z) : Action + PVal :=
  if (d <? 0)%Z then inr (PEngine "duration must not be negative" None)
  else inl (ActAdvance (JBy d)).

(** What is observed of a test:
    - [TvDo], [TvDid]: an action begins and ends;
    - [TvOp]: an operation of the engine and the facts its observers are notified of;
    - [TvUser]: the code of the test changes the users' state;
    - [TvClock]: the virtual clock is set;
    - [TvExecute], [TvOutside]: ExecuteCommand() is called on the test's executor;
      [TvOutside]: it panics because it is not bound;
    - [TvEnable]: a handler is enabled or disabled;
    - [TvAnnotate]: a value is annotated;
    - [TvPredicate], [TvFinal]: a predicate is created; its Done() is called;
    - [TvReport], [TvFatal], [TvFailNow]: Log() with a report, Fatal(), FailNow(). *)
Inductive TEv :=
| TvDo (k : AKind)
| TvDid (k : AKind)
| TvOp (op : Op) (fs : list Fact)
| TvUser (f : U -> U)
| TvClock (t : Z)
| TvExecute (b : Body)
| TvOutside (b : Body)
| TvEnable (name : string) (b : bool)
| TvAnnotate (a : Annotation)
| TvPredicate
| TvFinal
| TvReport (r : Report)
| TvFatal (e : TErr)
| TvFailNow.

(** Test (test.go:22-32) with its CommandExecutor (executor.go:16-20).  [ts_bound]: the
    options of the executor while it is bound.  [ts_next]: the number of the next
    predicate, as an observer.  [ts_step]: the number of engine operations so far. *)
Record TState := mkTS {
  ts_clock : Z; ts_eng : EState; ts_bound : option (list OOpt); ts_icpt : option Interceptor;
  ts_opts : list OOpt; ts_compare : option (Msg -> Msg -> bool);
  ts_failed : bool; ts_next : nat; ts_step : nat; ts_notes : list Annotation }.
Definition set_clock (t : Z) (st : TState) : TState :=
  mkTS t (ts_eng st) (ts_bound st) (ts_icpt st) (ts_opts st) (ts_compare st) (ts_failed st) (ts_next st) (ts_step st) (ts_notes st).
Definition set_bound (b : option (list OOpt)) (st : TState) : TState :=
  mkTS (ts_clock st) (ts_eng st) b (ts_icpt st) (ts_opts st) (ts_compare st) (ts_failed st) (ts_next st) (ts_step st) (ts_notes st).
Definition set_icpt (i : option Interceptor) (st : TState) : TState :=
  mkTS (ts_clock st) (ts_eng st) (ts_bound st) i (ts_opts st) (ts_compare st) (ts_failed st) (ts_next st) (ts_step st) (ts_notes st).
Definition set_opts (l : list OOpt) (st : TState) : TState :=
  mkTS (ts_clock st) (ts_eng st) (ts_bound st) (ts_icpt st) l (ts_compare st) (ts_failed st) (ts_next st) (ts_step st) (ts_notes st).
Definition set_failed (st : TState) : TState :=
  mkTS (ts_clock st) (ts_eng st) (ts_bound st) (ts_icpt st) (ts_opts st) (ts_compare st) true (ts_next st) (ts_step st) (ts_notes st).
Definition set_eng (e : EState) (st : TState) : TState :=
  mkTS (ts_clock st) e (ts_bound st) (ts_icpt st) (ts_opts st) (ts_compare st) (ts_failed st) (ts_next st) (ts_step st) (ts_notes st).
Definition set_next (n : nat) (st : TState) : TState :=
  mkTS (ts_clock st) (ts_eng st) (ts_bound st) (ts_icpt st) (ts_opts st) (ts_compare st) (ts_failed st) n (ts_step st) (ts_notes st).
Definition set_step (n : nat) (st : TState) : TState :=
  mkTS (ts_clock st) (ts_eng st) (ts_bound st) (ts_icpt st) (ts_opts st) (ts_compare st) (ts_failed st) (ts_next st) n (ts_notes st).
Definition set_notes (l : list Annotation) (st : TState) : TState :=
  mkTS (ts_clock st) (ts_eng st) (ts_bound st) (ts_icpt st) (ts_opts st) (ts_compare st) (ts_failed st) (ts_next st) (ts_step st) l.
Definition set_compare (f : Msg -> Msg -> bool) (st : TState) : TState :=
  mkTS (ts_clock st) (ts_eng st) (ts_bound st) (ts_icpt st) (ts_opts st) (Some f) (ts_failed st) (ts_next st) (ts_step st) (ts_notes st).

(** The environment of a test: for each operation of the engine its oracle, the budget of
    its loop and the order of controllers; the texts of reports, except for the rendering of
    messages; the iteration over sets of names; DefaultMessageComparator
    (compare.go:20-22); whether the TestingT's Fatal() and FailNow() stop the goroutine, as
    those of testing.T do, or return; other packages' comparison of values; and, for each
    report, dapper's rendering of messages with annotators. *)
Record TEnv := mkTEnv {
  te_oracle : nat -> Oracle; te_fuel : nat -> nat; te_order : nat -> list Handler;
  te_texts : nat -> RepTexts; te_shuffle : list string -> list string;
  te_compare : Msg -> Msg -> bool; te_stops : bool;
  te_go : GoLib; te_print : nat -> list Annotator -> Msg -> text }.

(** How an action ends, and how code ends: [Halted]: it does not (the engine's loop goes
    on, or the program was terminated). *)
Inductive AOut := AOk | AErr (e : TErr) | APan (v : PVal) | AGoexit | AHalt.
Inductive TOut := Done | Panicked (v : PVal) | Goexited | Halted.

Section Env.
Context (E : TEnv) (c : Config).

Definition ev_facts (evs : list Ev) : list Fact :=
  omap (fun ev => match ev with EvFact f => Some f | EvReset => None end) evs.

(** A call of Engine.Dispatch or Engine.Tick. *)
Definition engine_op (mk : Oracle -> nat -> list Handler -> Op) (st : TState) : TState * list TEv * AOut :=
  let n := ts_step st in
  let op := mk (te_oracle E n) (te_fuel E n) (te_order E n) in
  let '(es, evs, r) := run_op c op (ts_eng st) in
  (set_step (S n) (set_eng es st), [TvOp op (ev_facts evs)],
   match r with
   | Ok [] => AOk
   | Ok e => AErr (TEngine e)
   | Pan (PFatal v) => AHalt
   | Pan v => APan v
   | Fuel => AHalt
   end).

(** engine.CommandExecutor.ExecuteCommand, engine/executor.go:22-28. *)
Definition engine_execute (opts : list OOpt) (b : Body) : TState -> TState * list TEv * AOut :=
  engine_op (fun o fuel _ => OpDispatch o fuel (mkMsg KCommand b) opts).

(** The outcome as the caller sees it; [None]: it sees none. *)
Definition x_res (r : AOut) : option XRes :=
  match r with
  | AOk => Some (inl None)
  | AErr e => Some (inl (Some e))
  | APan v => Some (inr v)
  | AGoexit => None
  | AHalt => None
  end.

(** An interceptor's function with the executor it is given. *)
Fixpoint run_icpt (opts : list OOpt) (p : IProg) (st : TState) : TState * list TEv * AOut :=
  match p with
  | IRet None => (st, [], AOk)
  | IRet (Some e) => (st, [], AErr e)
  | IPanic v => (st, [], APan v)
  | IAct f k =>
    let e := es_set_g (ts_eng st) (g_act f (es_g (ts_eng st))) in
    let '(st, evs, r) := run_icpt opts (k (g_user (es_g e))) (set_eng e st) in (st, TvUser f :: evs, r)
  | INext b k =>
    let '(st, evs, r) := engine_execute opts b st in
    match x_res r with
    | None => (st, evs, r)
    | Some x => let '(st, evs', r) := run_icpt opts (k x) st in (st, evs ++ evs', r)
    end
  end.

(** CommandExecutor.ExecuteCommand, executor.go:28-45.  Locking is not modelled: there is
    one goroutine. *)
Definition execute_command (b : Body) (st : TState) : TState * list TEv * AOut :=
  match ts_bound st with
  | None => (st, [TvOutside b], APan (PEngine "ExecuteCommand(): cannot be called outside of a test" None))
  | Some opts =>
    let '(st, evs, r) :=
      match ts_icpt st with
      | Some i => run_icpt opts (i b) st
      | None => engine_execute opts b st
      end in
    (st, TvExecute b :: evs, r)
  end.

(** configkit's MessageTypes(): the types used by the application, and whether they are
    produced by any handler. *)
Definition app_types (t : MType) : option bool :=
  if existsb (fun h => bool_decide (t ∈ h_produced h)) (c_app c) then Some true
  else if existsb (fun h => bool_decide (t ∈ h_consumed h)) (c_app c) then Some false
  else None.

(** enableHandlers, test.go:237-267.  The second component is a panic. *)
Fixpoint enable_handlers (names : list string) (b : bool) (st : TState) : TState * list TEv * option PVal :=
  match names with
  | [] => (st, [], None)
  | n :: names =>
    match controllers c !! n with
    | None => (st, [], Some (PEngine "the application does not have a handler named" None))
    | Some h =>
      if b && h_disabled h then (st, [], Some (PEngine "cannot enable the handler" None))
      else
        let '(st, evs, r) := enable_handlers names b (set_opts (ts_opts st ++ [OptHandler n b]) st) in
        (st, TvEnable n b :: evs, r)
    end
  end.

(** The first loop of enableHandlersLike, test.go:270-290: the names, or a panic. *)
Fixpoint match_handlers (pats : list (option (string -> bool))) (names : list string) : list string + PVal :=
  match pats with
  | [] => inl names
  | None :: _ => inr (PEngine "regexp: Compile" None)
  | Some m :: pats =>
    let l := map h_name (List.filter (fun h => negb (h_disabled h) && m (h_name h)) (c_app c)) in
    match l with
    | [] => inr (PEngine "the application does not have any handlers with names that match" None)
    | _ => match_handlers pats (names ++ l)
    end
  end.
(** enableHandlersLike, test.go:269-300. *)
Definition enable_handlers_like (pats : list (option (string -> bool))) (b : bool) (st : TState)
  : TState * list TEv * option PVal :=
  match match_handlers pats [] with
  | inr v => (st, [], Some v)
  | inl names =>
    let names := te_shuffle E (remove_dups names) in
    (set_opts (ts_opts st ++ map (fun n => OptHandler n b) names) st, map (fun n => TvEnable n b) names, None)
  end.

(** Fatal() and FailNow() of the TestingT. *)
Definition stop : TOut := if te_stops E then Goexited else Done.
Definition fatal (e : TErr) (st : TState) : TState * list TEv * TOut := (set_failed st, [TvFatal e], stop).
Definition fail_now (st : TState) : TState * list TEv * TOut := (set_failed st, [TvFailNow], stop).

(** doAction, test.go:303-320: the options given to the action. *)
Definition action_options (extra : list OOpt) (st : TState) : list OOpt :=
  OptNow (ts_clock st) :: ts_opts st ++ extra.

(** Prepare, test.go:86-97, for one action. *)
Definition prepare (act : list OOpt -> TState -> TState * list TEv * AOut) (st : TState)
  : TState * list TEv * TOut :=
  let '(st, evs, r) := act (action_options [] st) st in
  match r with
  | AOk => (st, evs, Done)
  | AErr e => let '(st, evs', r) := fatal e st in (st, evs ++ evs', r)
  | APan v => (st, evs, Panicked v)
  | AGoexit => (st, evs, Goexited)
  | AHalt => (st, evs, Halted)
  end.

(** The facts notified to observer [n]. *)
Definition opts_of (op : Op) : list OOpt :=
  match op with OpDispatch _ _ _ opts => opts | OpTick _ _ _ opts => opts | _ => [] end.
Definition observed (n : nat) (evs : list TEv) : list Fact :=
  concat (map (fun ev => match ev with
    | TvOp op fs => if existsb (fun o => match o with OptObserver m => m =? n | _ => false end) (opts_of op)
                    then fs else []
    | _ => []
    end) evs).

(** The scope of Predicate(), test.go:103-108, with callAction.ConfigurePredicate
    (action.call.go:65-67); the others do nothing. *)
Definition test_scope (k : AKind) (st : TState) : Scope :=
  mkScope app_types (default (te_compare E) (ts_compare st)) (match k with AkCall => true | _ => false end).

Definition s_panic (v : SPan) : PVal := match v with SUser s => PUser s | SAbort => PUser "" end.

(** The texts of the report of predicate [n]: its messages are rendered by a printer with
    annotators for the annotations made so far, test.go:130-163, report.go:49-51. *)
Definition report_texts (n : nat) (notes : list Annotation) : RepTexts :=
  mkRT (rt_type (te_texts E n)) (te_print E n (annotators (te_go E) notes)) (rt_diff (te_texts E n)).

(** Expect, test.go:100-177. *)
Definition expect (k : AKind) (act : list OOpt -> TState -> TState * list TEv * AOut) (e : Exp) (st : TState)
  : TState * list TEv * TOut :=
  match new_predicate (test_scope k st) e with
  | inr er => fatal (TImpossible er) st
  | inl p =>
    let n := ts_next st in
    let '(st, evs, r) := act (action_options [OptObserver n] st) (set_next (S n) st) in
    match r with
    | AHalt => (st, TvPredicate :: evs, Halted)
    | _ =>
      let '(p, dp) := p_done (foldl (fun p f => notify f p) p (observed n evs)) in
      let evs := TvPredicate :: evs ++ [TvFinal] in
      match dp with
      | Some v => (st, evs, Panicked (s_panic v))
      | None =>
        match r with
        | AOk =>
          let rep := report (report_texts n (ts_notes st)) (mkCtx (p_ok p) false) p in
          let evs := evs ++ [TvReport rep] in
          if p_ok p then (st, evs, Done)
          else let '(st, evs', r) := fail_now st in (st, evs ++ evs', r)
        | AErr er => let '(st, evs', r) := fatal er st in (st, evs ++ evs', r)
        | APan v => (st, evs, Panicked v)
        | AGoexit => (st, evs, Goexited)
        | AHalt => (st, evs, Halted)
        end
      end
    end
  end.

(** dispatchAction.Do, action.dispatch.go:73-89. *)
Definition do_dispatch (m : Msg) (opts : list OOpt) (st : TState) : TState * list TEv * AOut :=
  match app_types (m_type m) with
  | None => (st, [], AErr (TUnrecognised m))
  | Some _ => engine_op (fun o fuel _ => OpDispatch o fuel m opts) st
  end.

(** advanceTimeAction.Do, action.advancetime.go:89-110. *)
Definition do_advance (j : Adj) (opts : list OOpt) (st : TState) : TState * list TEv * AOut :=
  match adj_step j (ts_clock st) with
  | inr v => (st, [], APan v)
  | inl now =>
    if (now <? ts_clock st)%Z then (st, [], AErr (TReverse j))
    else
      let st := set_clock now st in
      let '(st, evs, r) := engine_op (fun o fuel order => OpTick o fuel order (opts ++ [OptNow now])) st in
      (st, TvClock now :: evs, r)
  end.

(** callAction.Do, action.call.go:69-83; [run] is the function. *)
Definition do_call (run : TState -> TState * list TEv * TOut) (i : option Interceptor) (opts : list OOpt) (st : TState)
  : TState * list TEv * AOut :=
  let st0 := set_bound (Some opts) st in
  let prev := ts_icpt st0 in
  let st1 := match i with Some _ => set_icpt i st0 | None => st0 end in
  let '(st2, evs, r) := run st1 in
  let st3 := match i with Some _ => set_icpt prev st2 | None => st2 end in
  match r with
  | Halted => (st2, evs, AHalt)
  | Done => (set_bound None st3, evs, AOk)
  | Panicked v => (set_bound None st3, evs, APan v)
  | Goexited => (set_bound None st3, evs, AGoexit)
  end.

(** An action with the events of its beginning and end. *)
Definition bracket (k : AKind) (x : TState * list TEv * AOut) : TState * list TEv * AOut :=
  let '(st, evs, r) := x in
  (st, TvDo k :: evs ++ match r with AHalt => [] | _ => [TvDid k] end, r).

(** What happens after a method of the Test: the code goes on, unless the goroutine was
    stopped. *)
Definition and_then (x : TState * list TEv * TOut) (k : option PVal -> TState -> TState * list TEv * TOut)
  : TState * list TEv * TOut :=
  let '(st, evs, r) := x in
  match r with
  | Done => let '(st, evs', r) := k None st in (st, evs ++ evs', r)
  | Panicked v => let '(st, evs', r) := k (Some v) st in (st, evs ++ evs', r)
  | _ => (st, evs, r)
  end.

(** The code of a test, and Action.Do. *)
Fixpoint run_test (p : TProg) (st : TState) : TState * list TEv * TOut :=
  match p with
  | TRet => (st, [], Done)
  | TPanic v => (st, [], Panicked v)
  | TStop => (st, [], Goexited)
  | TAct f k =>
    let e := es_set_g (ts_eng st) (g_act f (es_g (ts_eng st))) in
    let '(st, evs, r) := run_test (k (g_user (es_g e))) (set_eng e st) in (st, TvUser f :: evs, r)
  | TExecute b k =>
    let '(st, evs, r) := execute_command b st in
    match x_res r with
    | None => (st, evs, Halted)
    | Some x => let '(st, evs', r) := run_test (k x) st in (st, evs ++ evs', r)
    end
  | TPrepare a k => and_then (prepare (do_action a) st) (fun v => run_test (k v))
  | TExpect a e k => and_then (expect (a_kind a) (do_action a) e st) (fun v => run_test (k v))
  | TEnable names b k =>
    let '(st, evs, v) := enable_handlers names b st in
    let '(st, evs', r) := run_test (k v) st in (st, evs ++ evs', r)
  | TEnableLike pats b k =>
    let '(st, evs, v) := enable_handlers_like pats b st in
    let '(st, evs', r) := run_test (k v) st in (st, evs ++ evs', r)
  | TAnnotate a k => (* Annotate, test.go:194-197 *)
    let '(st, evs, r) := run_test k (set_notes (ts_notes st ++ [a]) st) in (st, TvAnnotate a :: evs, r)
  end
with do_action (a : Action) (opts : list OOpt) (st : TState) : TState * list TEv * AOut :=
  match a with
  | ActDispatch m => bracket AkDispatch (do_dispatch m opts st)
  | ActAdvance j => bracket AkAdvance (do_advance j opts st)
  | ActCall fn i => bracket AkCall (do_call (run_test fn) i opts st)
  end.

End Env.

(** ** Begin *)

(** TestOption values: StartTimeAt, WithUnsafeOperationOptions (testoption.go:24-42),
    InterceptCommandExecutor (executor.go:110-130), WithMessageComparator
    (compare.go:30-34). *)
Inductive TOpt :=
| OptStart (t : Z)
| OptUnsafe (l : list OOpt)
| OptIntercept (i : Interceptor)
| OptCompare (f : Msg -> Msg -> bool).
Definition apply_topt (st : TState) (o : TOpt) : TState :=
  match o with
  | OptStart t => set_clock t st
  | OptUnsafe l => set_opts (ts_opts st ++ l) st
  | OptIntercept i => set_icpt (Some i) st
  | OptCompare f => set_compare f st
  end.
Definition max_observer (l : list OOpt) : nat :=
  foldr (fun o n => match o with OptObserver m => Nat.max m n | _ => n end) 0 l.

(** BeginContext, test.go:49-82; the engine compacts projections while handling events.
    Observer 0 is the fact logger.  [wall]: time.Now(). *)
Definition test_config (app : list Handler) : Config := mkConfig app true [].
Definition begin (app : list Handler) (u : U) (wall : Z) (opts : list TOpt) : TState :=
  let st := mkTS wall (e_init (test_config app) u) None None
              [OptType HTProjection false; OptType HTIntegration false; OptObserver 0] None false 0 0 [] in
  let st := foldl apply_topt st opts in
  set_next (S (max_observer (ts_opts st))) st.

End Test.
