(** * Tests with user-defined actions: test.go and action.go, with actions that use all of
    their ActionScope. *)
From Verif Require Export TestModel.

Section Act.
Context {P : Params}.

(** PredicateOptions, expectation.go:58-70; [None]: the comparator is nil. *)
Record POpts := mkPO { po_compare : option (Msg -> Msg -> bool); po_match : bool }.

(** Actions (action.go:16-32) and code, which is the body of a test as well as the body of
    an action's Do() method.  As in TestModel, each call is followed by what happens next,
    given its result, or the panic if there was one.
    - [UDone]: Do() returns; the result of the body of a test is not used;
    - [UExecute]: ExecuteCommand() of the test's executor;
    - [UDispatch], [UTick], [UReset]: the methods of s.Engine with any options, such as
      s.OperationOptions followed by others;
    - [UClock], [USetClock]: reading and setting *s.VirtualClock;
    - [UBind], [UUnbind], [UIntercept]: the methods of s.Executor; Bind() is given s.Engine;
    - [UTry p q k]: func() error { defer q(); return p() }(), then [k] with the result.
    An action is given by its kind, [None] being one that is defined by the user; by what
    its methods Caption() and ConfigurePredicate() return, or panic with; and by Do(), which
    is given s.OperationOptions.  Location() is not used by tests. *)
Inductive UProg :=
| UDone (e : option TErr)
| UPanic (v : PVal)
| UStop
| UAct (f : U -> U) (k : U -> UProg)
| UExecute (b : Body) (k : XRes -> UProg)
| UDispatch (m : Msg) (opts : list OOpt) (k : XRes -> UProg)
| UTick (opts : list OOpt) (k : XRes -> UProg)
| UReset (k : UProg)
| UClock (k : Z -> UProg)
| USetClock (t : Z) (k : UProg)
| UBind (opts : list OOpt) (k : UProg)
| UUnbind (k : UProg)
| UIntercept (i : option Interceptor) (k : option Interceptor -> UProg)
| UTry (p q : UProg) (k : XRes -> UProg)
| UPrepare (a : UAction) (k : option PVal -> UProg)
| UExpect (a : UAction) (e : Exp) (k : option PVal -> UProg)
| UEnable (names : list string) (b : bool) (k : option PVal -> UProg)
| UEnableLike (pats : list (option (string -> bool))) (b : bool) (k : option PVal -> UProg)
| UAnnotate (a : Annotation) (k : UProg)
with UAction :=
| mkUA (kind : option AKind) (caption : string + PVal) (conf : POpts -> POpts + PVal) (do : list OOpt -> UProg).

Definition ua_kind (a : UAction) : option AKind := match a with mkUA k _ _ _ => k end.
Definition ua_caption (a : UAction) : string + PVal := match a with mkUA _ s _ _ => s end.
Definition ua_conf (a : UAction) : POpts -> POpts + PVal := match a with mkUA _ _ f _ => f end.
Definition ua_do (a : UAction) : list OOpt -> UProg := match a with mkUA _ _ _ do => do end.

(** What is observed of a test: as in TestModel ([VT]), except that the beginning of an
    action comes with the options it is given ([VDo], [VDid]); furthermore
    - [VHeading]: the heading with the captions of the action and the expectation is logged;
    - [VConfigure]: ConfigurePredicate() is called with these options;
    - [VReset], [VBind], [VUnbind], [VIntercept]: calls of these methods. *)
Inductive UEv :=
| VT (ev : TEv)
| VDo (k : option AKind) (opts : list OOpt)
| VDid (k : option AKind)
| VHeading (s : string) (e : option Exp)
| VConfigure (o : POpts)
| VReset
| VBind (opts : list OOpt)
| VUnbind
| VIntercept (i : option Interceptor).

Section Env.
Context (E : TEnv) (c : Config).

Definition Run : Type := TState * list UEv * AOut.

(** Events of the functions of TestModel. *)
Definition lift (x : TState * list TEv * AOut) : Run := let '(st, evs, r) := x in (st, VT <$> evs, r).

(** After a call that returned or panicked the code goes on. *)
Definition x_then (x : Run) (k : XRes -> TState -> Run) : Run :=
  let '(st, evs, r) := x in
  match x_res r with
  | None => (st, evs, r)
  | Some y => let '(st, evs', r) := k y st in (st, evs ++ evs', r)
  end.
Definition tell (ev : UEv) (x : Run) : Run := let '(st, evs, r) := x in (st, ev :: evs, r).

(** A function and one that it defers. *)
Definition deferring (p q : TState -> Run) (st : TState) : Run :=
  let '(st, evs, r) := p st in
  match r with
  | AHalt => (st, evs, r)
  | _ =>
    let '(st, evs', r') := q st in
    (st, evs ++ evs', match r' with AOk | AErr _ => r | _ => r' end)
  end.

(** Fatal() and FailNow() of the TestingT. *)
Definition u_stop : AOut := if te_stops E then AGoexit else AOk.
Definition u_fatal (e : TErr) (st : TState) : Run := (set_failed st, [VT (TvFatal e)], u_stop).

(** Prepare, test.go:86-97, for one action. *)
Definition u_prepare (a : UAction) (act : list OOpt -> TState -> Run) (st : TState) : Run :=
  match ua_caption a with
  | inr v => (st, [], APan v)
  | inl s =>
    let '(st, evs, r) := tell (VHeading s None) (act (action_options [] st) st) in
    match r with
    | AErr e => let '(st, evs', r) := u_fatal e st in (st, evs ++ evs', r)
    | _ => (st, evs, r)
    end
  end.

(** The facts notified to observer [n]. *)
Definition u_observed (n : nat) (evs : list UEv) : list Fact :=
  observed n (omap (fun ev => match ev with VT ev => Some ev | _ => None end) evs).

(** Expect, test.go:100-177.  The predicate is notified of the facts while the action is
    performed. *)
Definition u_expect (a : UAction) (act : list OOpt -> TState -> Run) (e : Exp) (st : TState) : Run :=
  let o := mkPO (ts_compare st) false in
  match ua_conf a o with
  | inr v => (st, [VConfigure o], APan v)
  | inl o' =>
    match ua_caption a with
    | inr v => (st, [VConfigure o], APan v)
    | inl s =>
      let pre := [VConfigure o; VHeading s (Some e)] in
      match new_predicate (mkScope (app_types c) (default (te_compare E) (po_compare o')) (po_match o')) e with
      | inr er => let '(st, evs, r) := u_fatal (TImpossible er) st in (st, pre ++ evs, r)
      | inl p =>
        let n := ts_next st in
        let '(st, evs, r) := act (action_options [OptObserver n] st) (set_next (S n) st) in
        match r with
        | AHalt => (st, pre ++ VT TvPredicate :: evs, AHalt)
        | _ =>
          let '(p, dp) := p_done (foldl (fun p f => notify f p) p (u_observed n evs)) in
          let evs := pre ++ VT TvPredicate :: evs ++ [VT TvFinal] in
          match dp with
          | Some v => (st, evs, APan (s_panic v))
          | None =>
            match r with
            | AOk =>
              let rep := report (report_texts E n (ts_notes st)) (mkCtx (p_ok p) false) p in
              let evs := evs ++ [VT (TvReport rep)] in
              if p_ok p then (st, evs, AOk) else (set_failed st, evs ++ [VT TvFailNow], u_stop)
            | AErr er => let '(st, evs', r) := u_fatal er st in (st, evs ++ evs', r)
            | _ => (st, evs, r)
            end
          end
        end
      end
    end
  end.

(** The panic of a method of the Test. *)
Definition x_panic (x : XRes) : option PVal := match x with inl _ => None | inr v => Some v end.
Definition v_res (v : option PVal) : AOut := match v with None => AOk | Some v => APan v end.

(** The code of tests and of actions; doAction, test.go:303-320, with the events of the
    action's beginning and end. *)
Fixpoint run_u (p : UProg) (st : TState) : Run :=
  match p with
  | UDone None => (st, [], AOk)
  | UDone (Some e) => (st, [], AErr e)
  | UPanic v => (st, [], APan v)
  | UStop => (st, [], AGoexit)
  | UAct f k =>
    let e := es_set_g (ts_eng st) (g_act f (es_g (ts_eng st))) in
    tell (VT (TvUser f)) (run_u (k (g_user (es_g e))) (set_eng e st))
  | UExecute b k => x_then (lift (execute_command E c b st)) (fun x => run_u (k x))
  | UDispatch m opts k =>
    x_then (lift (engine_op E c (fun o fuel _ => OpDispatch o fuel m opts) st)) (fun x => run_u (k x))
  | UTick opts k =>
    x_then (lift (engine_op E c (fun o fuel order => OpTick o fuel order opts) st)) (fun x => run_u (k x))
  | UReset k => tell VReset (run_u k (set_eng (e_reset c (ts_eng st)) st))
  | UClock k => run_u (k (ts_clock st)) st
  | USetClock t k => tell (VT (TvClock t)) (run_u k (set_clock t st))
  | UBind opts k => tell (VBind opts) (run_u k (set_bound (Some opts) st))          (* executor.go:55-61 *)
  | UUnbind k => tell VUnbind (run_u k (set_bound None st))                         (* executor.go:66-72 *)
  | UIntercept i k => tell (VIntercept i) (run_u (k (ts_icpt st)) (set_icpt i st))  (* executor.go:80-88 *)
  | UTry p q k => x_then (deferring (run_u p) (run_u q) st) (fun x => run_u (k x))
  | UPrepare a k => x_then (u_prepare a (do_u a) st) (fun x => run_u (k (x_panic x)))
  | UExpect a e k => x_then (u_expect a (do_u a) e st) (fun x => run_u (k (x_panic x)))
  | UEnable names b k =>
    let '(st, evs, v) := enable_handlers c names b st in
    x_then (st, VT <$> evs, v_res v) (fun x => run_u (k (x_panic x)))
  | UEnableLike pats b k =>
    let '(st, evs, v) := enable_handlers_like E c pats b st in
    x_then (st, VT <$> evs, v_res v) (fun x => run_u (k (x_panic x)))
  | UAnnotate a k => tell (VT (TvAnnotate a)) (run_u k (set_notes (ts_notes st ++ [a]) st))
  end
with do_u (a : UAction) (opts : list OOpt) (st : TState) : Run :=
  match a with
  | mkUA k _ _ do =>
    let '(st, evs, r) := run_u (do opts) st in
    (st, VDo k opts :: evs ++ match r with AHalt => [] | _ => [VDid k] end, r)
  end.
End Env.

(** ** The built-in actions *)

(** The result of a call as the result of Do(). *)
Definition u_return (x : XRes) : UProg := match x with inl e => UDone e | inr v => UPanic v end.

Section Builtin.
Context (c : Config) (captions : Action -> string).

(** The actions of TestModel as code: dispatchAction (action.dispatch.go:70-89),
    advanceTimeAction (action.advancetime.go:86-110) and callAction (action.call.go:65-83).
    The texts of captions are those of [captions]. *)
Fixpoint u_test (p : TProg) : UProg :=
  match p with
  | TRet => UDone None
  | TPanic v => UPanic v
  | TStop => UStop
  | TAct f k => UAct f (fun u => u_test (k u))
  | TExecute b k => UExecute b (fun x => u_test (k x))
  | TPrepare a k => UPrepare (u_action a) (fun v => u_test (k v))
  | TExpect a e k => UExpect (u_action a) e (fun v => u_test (k v))
  | TEnable names b k => UEnable names b (fun v => u_test (k v))
  | TEnableLike pats b k => UEnableLike pats b (fun v => u_test (k v))
  | TAnnotate a k => UAnnotate a (u_test k)
  end
with u_action (a : Action) : UAction :=
  match a with
  | ActDispatch m =>
    mkUA (Some AkDispatch) (inl (captions a)) inl (fun opts =>
      match app_types c (m_type m) with
      | None => UDone (Some (TUnrecognised m))
      | Some _ => UDispatch m opts u_return
      end)
  | ActAdvance j =>
    mkUA (Some AkAdvance) (inl (captions a)) inl (fun opts =>
      UClock (fun t =>
        match adj_step j t with
        | inr v => UPanic v
        | inl now =>
          if (now <? t)%Z then UDone (Some (TReverse j))
          else USetClock now (UTick (opts ++ [OptNow now]) u_return)
        end))
  | ActCall fn i =>
    mkUA (Some AkCall) (inl (captions a)) (fun o => inl (mkPO (po_compare o) true)) (fun opts =>
      UBind opts (UTry
        match i with
        | None => u_test fn
        | Some _ => UIntercept i (fun prev => UTry (u_test fn) (UIntercept prev (fun _ => UDone None)) u_return)
        end
        (UUnbind (UDone None)) u_return))
  end.
End Builtin.

End Act.
