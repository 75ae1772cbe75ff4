(** * Concurrent use of an engine: engine/engine.go, envelope/id.go

    Goroutines call Dispatch, Tick and Reset of one engine.  They share the counter
    of message IDs, the mutex and what the mutex protects.  The machine interleaves
    atomic steps of the goroutines.

    What the goroutines do while they hold the mutex is arbitrary code ([Body]): any
    sequence of accesses to the protected state, allocations of message IDs and
    notifications, chosen depending on what was seen before; the code of the
    controllers and of the handlers is of this kind as long as the handlers do not
    themselves call the engine. *)
From Verif Require Export BaseModel.

Section Conc.
(** The state protected by the mutex, facts, errors. *)
Context {S F E : Type}.

(** How a call ends. *)
Inductive Ret := Returned (e : E) | Panicked.

(** What is done by Engine.dispatch, Engine.tick (engine.go:117-165, 240-290) and by
    the loops of Reset (engine.go:73-79). *)
Inductive Body :=
| BEnd (r : Ret)
| BNotify (f : F) (k : Body)
| BNext (k : string -> Body)
| BZero (k : Body)
| BAccess (f : S -> S) (k : S -> Body).

(** The code of one call, instruction by instruction. *)
Inductive Code :=
| CEnd (r : Ret)
| CNotify (f : F) (k : Code)
| CNext (k : string -> Code)
| CZero (k : Code)
| CAccess (f : S -> S) (k : S -> Code)
| CLock (ctx : option E) (k : option E -> Code)
| CUnlock (k : Code).

Fixpoint run_body (b : Body) (ret : E -> Code) (panic : Code) : Code :=
  match b with
  | BEnd (Returned e) => ret e
  | BEnd Panicked => panic
  | BNotify f k => CNotify f (run_body k ret panic)
  | BNext k => CNext (fun id => run_body (k id) ret panic)
  | BZero k => CZero (run_body k ret panic)
  | BAccess f k => CAccess f (fun s => run_body (k s) ret panic)
  end.

(** A call: its context ([Some e]: the context can become done, with the error
    [e]), the facts at its beginning and at its end, and what it does meanwhile.
    [d_begun] is [None] if Dispatch panics before any fact is notified. *)
Inductive Call :=
| KDispatch (ctx : option E) (begun : string -> option F) (body : string -> Body) (completed : string -> E -> F)
| KTick (ctx : option E) (begun : F) (body : Body) (completed : E -> F)
| KReset (body : Body).

(** Dispatch, engine.go:184-238. *)
Definition dispatch_code (ctx : option E) (begun : string -> option F) (body : string -> Body)
    (completed : string -> E -> F) : Code :=
  CNext (fun id =>
    match begun id with
    | None => CEnd Panicked
    | Some f =>
      CNotify f (CLock ctx (fun err =>
        match err with
        | None =>
          (* the deferred call of Unlock is made after the last notification, and
             also if there is a panic *)
          run_body (body id) (fun e => CNotify (completed id e) (CUnlock (CEnd (Returned e)))) (CUnlock (CEnd Panicked))
        | Some e => CNotify (completed id e) (CEnd (Returned e))
        end))
    end).
(** Tick, engine.go:86-115. *)
Definition tick_code (ctx : option E) (begun : F) (body : Body) (completed : E -> F) : Code :=
  CNotify begun (CLock ctx (fun err =>
    match err with
    | None => run_body body (fun e => CNotify (completed e) (CUnlock (CEnd (Returned e)))) (CUnlock (CEnd Panicked))
    | Some e => CNotify (completed e) (CEnd (Returned e))
    end)).
(** Reset, engine.go:67-80; the context is never done. *)
Definition reset_code (body : Body) : Code :=
  CLock None (fun _ =>
    CZero (run_body body (fun e => CUnlock (CEnd (Returned e))) (CUnlock (CEnd Panicked)))).
Definition code_of (c : Call) : Code :=
  match c with
  | KDispatch ctx begun body completed => dispatch_code ctx begun body completed
  | KTick ctx begun body completed => tick_code ctx begun body completed
  | KReset body => reset_code body
  end.

(** A goroutine: the number of calls that have ended, the code of the current call,
    if any, and the calls it will make. *)
Record Thread := mkThread { th_n : nat; th_code : option Code; th_rest : list Call }.
(** The counter (envelope/id.go:9-11), whether the mutex is locked, the protected state and
    the goroutines. *)
Record Sys := mkSys { sy_ctr : N; sy_locked : bool; sy_state : S; sy_threads : list Thread }.

(** A call is identified by its goroutine and its position among its calls. *)
Notation OpId := (nat * nat)%type.
(** What happens in one step. *)
Inductive Label :=
| LCall | LEnd (r : Ret)
| LNotify (f : F) | LNext (id : string) | LZero | LAccess
| LLock | LGiveUp | LUnlock.

(** One step of the code of a call.  MessageIDGenerator.Next and Reset are atomic
    (envelope/id.go:14-24).  cosyne.Mutex: Lock(ctx) waits until it can lock the mutex or the
    context is done. *)
Inductive cstep : N -> bool -> S -> Code -> Label -> N -> bool -> S -> Code -> Prop :=
| cs_notify n b s f k : cstep n b s (CNotify f k) (LNotify f) n b s k
| cs_next n b s k : cstep n b s (CNext k) (LNext (id_string (n + 1))) (n + 1)%N b s (k (id_string (n + 1)))
| cs_zero n b s k : cstep n b s (CZero k) LZero 0%N b s k
| cs_access n b s f k : cstep n b s (CAccess f k) LAccess n b (f s) (k (f s))
| cs_lock n s ctx k : cstep n false s (CLock ctx k) LLock n true s (k None)
| cs_give_up n b s e k : cstep n b s (CLock (Some e) k) LGiveUp n b s (k (Some e))
| cs_unlock n s k : cstep n true s (CUnlock k) LUnlock n false s k.

Inductive tstep : N -> bool -> S -> Thread -> Label -> N -> bool -> S -> Thread -> Prop :=
| ts_call n b s i c rest : tstep n b s (mkThread i None (c :: rest)) LCall n b s (mkThread i (Some (code_of c)) rest)
| ts_code n b s l n' b' s' i p p' rest : cstep n b s p l n' b' s' p' ->
    tstep n b s (mkThread i (Some p) rest) l n' b' s' (mkThread i (Some p') rest)
| ts_end n b s i r rest : tstep n b s (mkThread i (Some (CEnd r)) rest) (LEnd r) n b s (mkThread (1 + i) None rest).

(** One step of goroutine [t]. *)
Inductive step : Sys -> OpId * Label -> Sys -> Prop :=
| step_thread n b s ths t th l n' b' s' th' :
    ths !! t = Some th -> tstep n b s th l n' b' s' th' ->
    step (mkSys n b s ths) (t, th_n th, l) (mkSys n' b' s' (<[t := th']> ths)).

(** A schedule and what happens in it. *)
Inductive runs : Sys -> list (OpId * Label) -> Sys -> Prop :=
| runs_nil y : runs y [] y
| runs_snoc y tr y' e y'' : runs y tr y' -> step y' e y'' -> runs y (tr ++ [e]) y''.

(** An engine in the state [s] that has allocated [n] IDs, and the goroutines that
    will use it, each with the calls it will make. *)
Definition sys_init (n : N) (s : S) (calls : list (list Call)) : Sys :=
  mkSys n false s ((fun cs => mkThread 0 None cs) <$> calls).
End Conc.
Notation OpId := (nat * nat)%type.
Arguments Ret : clear implicits.
Arguments Body : clear implicits.
Arguments Code : clear implicits.
Arguments Call : clear implicits.
Arguments Thread : clear implicits.
Arguments Sys : clear implicits.
Arguments Label : clear implicits.
