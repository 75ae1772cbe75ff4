(** * Concurrent use of a CommandExecutor: executor.go, engine/executor.go

    Goroutines use one CommandExecutor (ExecuteCommand, Bind, Unbind, Intercept) and the
    engines it is bound to.  They share the RWMutex and the fields of the executor and
    the mutexes of the engines.  The machine interleaves atomic steps.

    User code (the functions of goroutines, interceptors, and the handlers and observers
    an engine runs while its mutex is locked) is any program over these operations. *)
From Verif Require Export BaseModel.

Section Exec.
(** Bindings (an engine with options), commands, what ExecuteCommand returns,
    interceptors. *)
Context {B M R I : Type}.

(** How a call ends; [Outside]: the panic of executor.go:37. *)
Inductive Res := Returned (r : R) | Outside | Panicked.
(** Bind, Unbind and Intercept, executor.go:55-88. *)
Inductive Write := WBind (b : B) | WUnbind | WIntercept (i : option I).

(** User code.  [GExec]: ExecuteCommand of the executor; [GDispatch]: ExecuteCommand of an
    engine.CommandExecutor with binding [b] (engine/executor.go:22-28).  [ctx]: [Some e] if
    the context can become done, with the error [e].  [GWrite]: Bind, Unbind or Intercept;
    the code goes on with the result of Intercept. *)
Inductive Prog :=
| GRet (r : Res)
| GStep (k : Prog)
| GExec (ctx : option R) (m : M) (k : Res -> Prog)
| GDispatch (ctx : option R) (b : B) (m : M) (k : Res -> Prog)
| GWrite (w : Write) (k : option I -> Prog).

(** The engine of a binding; the code of an interceptor, given e.next; what an engine
    runs for a command while its mutex is locked (engine.go:184-238; what it does before
    that does not lock anything). *)
Context (engine : B -> nat) (icpt : I -> option R -> M -> B -> Prog) (handle : B -> M -> Prog).

(** What a goroutine is doing: user code, ExecuteCommand after RLock (executor.go:33-44),
    or one of Bind, Unbind and Intercept: waiting for readers, before and after the
    fields are written. *)
Inductive Ctl :=
| CRun (p : Prog)
| CRead (ctx : option R) (m : M)
| CWait (w : Write) (k : option I -> Prog)
| CWrite (w : Write) (k : option I -> Prog)
| CUnlock (k : Prog).
(** Calls in progress, innermost first: of ExecuteCommand of the executor and of the
    locked part of an engine's Dispatch, with the code to return to. *)
Inductive Frm := FExec (k : Res -> Prog) | FEngine (e : nat) (k : Res -> Prog).
Record Thread := mkThread { th_ctl : Ctl; th_stack : list Frm }.

(** sync.RWMutex: the number of readers, and whether a writer waits or holds it.  While a
    writer waits no reader can lock it and no other writer can start to wait. *)
Inductive WState := WFree | WPending | WHeld.
(** The executor (executor.go:16-20), the engines whose mutexes are locked and the
    goroutines. *)
Record Shared := mkShared { sh_readers : nat; sh_writer : WState; sh_bound : option B; sh_icpt : option I; sh_locked : gset nat }.
Record Sys := mkSys { sy_sh : Shared; sy_threads : list Thread }.

(** What ExecuteCommand does, executor.go:36-44. *)
Inductive Outcome := OOutside | OIntercept (i : I) (b : B) | OForward (b : B).
Definition outcome (b : option B) (i : option I) : Outcome :=
  match b with
  | None => OOutside
  | Some b => match i with Some i => OIntercept i b | None => OForward b end
  end.
Definition outcome_prog (ctx : option R) (m : M) (o : Outcome) : Prog :=
  match o with
  | OOutside => GRet Outside
  | OIntercept i b => icpt i ctx m b
  | OForward b => GDispatch ctx b m GRet
  end.

Inductive Label :=
| LExec (ctx : option R) (m : M) | LFound (o : Outcome) | LExecEnd (r : Res)
| LEngine (ctx : option R) (b : B) (m : M) | LGiveUp (e : R) | LEngineEnd (r : Res)
| LWait | LLock | LWrite (w : Write) | LUnlock
| LStep.

Definition write_bound (w : Write) (b : option B) : option B := match w with WBind b => Some b | WUnbind => None | _ => b end.
Definition write_icpt (w : Write) (i : option I) : option I := match w with WIntercept i => i | _ => i end.
(** What Intercept returns; Bind and Unbind return nothing. *)
Definition write_result (w : Write) (i : option I) : option I := match w with WIntercept _ => i | _ => None end.

(** One step of a goroutine.  executor.go:33-34 (RLock, RUnlock), 36-44; 55-61, 66-72,
    80-88 (Lock, the assignments, Unlock). *)
Inductive tstep : Shared -> Thread -> Label -> Shared -> Thread -> Prop :=
| ts_step s k stk : tstep s (mkThread (CRun (GStep k)) stk) LStep s (mkThread (CRun k) stk)
| ts_exec n b i l ctx m k stk :
    tstep (mkShared n WFree b i l) (mkThread (CRun (GExec ctx m k)) stk) (LExec ctx m)
          (mkShared (S n) WFree b i l) (mkThread (CRead ctx m) (FExec k :: stk))
| ts_read n w b i l ctx m stk :
    tstep (mkShared n w b i l) (mkThread (CRead ctx m) stk) (LFound (outcome b i))
          (mkShared n w b i l) (mkThread (CRun (outcome_prog ctx m (outcome b i))) stk)
| ts_exec_end n w b i l r k stk :
    tstep (mkShared (S n) w b i l) (mkThread (CRun (GRet r)) (FExec k :: stk)) (LExecEnd r)
          (mkShared n w b i l) (mkThread (CRun (k r)) stk)
| ts_engine n w bd i l ctx b m k stk : engine b ∉ l ->
    tstep (mkShared n w bd i l) (mkThread (CRun (GDispatch ctx b m k)) stk) (LEngine ctx b m)
          (mkShared n w bd i ({[engine b]} ∪ l)) (mkThread (CRun (handle b m)) (FEngine (engine b) k :: stk))
| ts_give_up s e b m k stk :
    tstep s (mkThread (CRun (GDispatch (Some e) b m k)) stk) (LGiveUp e) s (mkThread (CRun (k (Returned e))) stk)
| ts_engine_end n w b i l r e k stk :
    tstep (mkShared n w b i l) (mkThread (CRun (GRet r)) (FEngine e k :: stk)) (LEngineEnd r)
          (mkShared n w b i (l ∖ {[e]})) (mkThread (CRun (k r)) stk)
| ts_wait n b i l w k stk :
    tstep (mkShared n WFree b i l) (mkThread (CRun (GWrite w k)) stk) LWait
          (mkShared n WPending b i l) (mkThread (CWait w k) stk)
| ts_lock b i l w k stk :
    tstep (mkShared 0 WPending b i l) (mkThread (CWait w k) stk) LLock
          (mkShared 0 WHeld b i l) (mkThread (CWrite w k) stk)
| ts_write n s b i l w k stk :
    tstep (mkShared n s b i l) (mkThread (CWrite w k) stk) (LWrite w)
          (mkShared n s (write_bound w b) (write_icpt w i) l) (mkThread (CUnlock (k (write_result w i))) stk)
| ts_unlock n s b i l p stk :
    tstep (mkShared n s b i l) (mkThread (CUnlock p) stk) LUnlock
          (mkShared n WFree b i l) (mkThread (CRun p) stk).

(** One step of goroutine [t]; [d]: the number of calls in progress around what it does
    (for the end of a call, around the call). *)
Definition depth (l : Label) (th : Thread) : nat :=
  match l with LExecEnd _ | LEngineEnd _ => pred (length (th_stack th)) | _ => length (th_stack th) end.
Inductive step : Sys -> nat * nat * Label -> Sys -> Prop :=
| step_thread s ths t th l s' th' :
    ths !! t = Some th -> tstep s th l s' th' ->
    step (mkSys s ths) (t, depth l th, l) (mkSys s' (<[t := th']> ths)).
Inductive runs : Sys -> list (nat * nat * Label) -> Sys -> Prop :=
| runs_nil y : runs y [] y
| runs_snoc y tr y' e y'' : runs y tr y' -> step y' e y'' -> runs y (tr ++ [e]) y''.

(** An executor that nobody uses yet, and the goroutines. *)
Definition sys_init (b : option B) (i : option I) (ps : list Prog) : Sys :=
  mkSys (mkShared 0 WFree b i ∅) ((fun p => mkThread (CRun p) []) <$> ps).

(** callAction.Do, action.call.go:69-83. *)
Fixpoint g_then (p : Prog) (k : Res -> Prog) : Prog :=
  match p with
  | GRet r => k r
  | GStep p => GStep (g_then p k)
  | GExec ctx m f => GExec ctx m (fun r => g_then (f r) k)
  | GDispatch ctx b m f => GDispatch ctx b m (fun r => g_then (f r) k)
  | GWrite w f => GWrite w (fun i => g_then (f i) k)
  end.
Definition call_prog (b : B) (on_execute : option I) (fn : Prog) (k : Res -> Prog) : Prog :=
  GWrite (WBind b) (fun _ =>
    match on_execute with
    | Some i => GWrite (WIntercept (Some i)) (fun prev => g_then fn (fun r => GWrite (WIntercept prev) (fun _ => GWrite WUnbind (fun _ => k r))))
    | None => g_then fn (fun r => GWrite WUnbind (fun _ => k r))
    end).
End Exec.
Arguments Res : clear implicits.
Arguments Write : clear implicits.
Arguments Prog : clear implicits.
Arguments Thread : clear implicits.
Arguments Shared : clear implicits.
Arguments Frm : clear implicits.
Arguments Sys : clear implicits.
Arguments Label : clear implicits.
Arguments Outcome : clear implicits.
