(** * Basic vocabulary of the model: messages, envelopes, IDs, panics, facts.

    Models: envelope/*.go, fact/{aggregate,dispatch,integration,process,
    projection,skip,tick}.go, engine/internal/panicx/*.go and the parts of
    dogma / enginekit/message / configkit that testkit relies on. *)
From stdpp Require Export gmap strings pretty list.
From Coq Require Export ZArith.
Export ListNotations.
Open Scope list_scope.

(** The types the engine is parametric in.  They stand for user-defined Go
    types: [U] is everything user code can read and write outside the engine
    (databases, global variables, handler fields), [Root] the aggregate and
    process roots, [D] the contents of messages. *)
Class Params := { U : Type; Root : Type; D : Type }.

(** message.Kind (enginekit/message): commands, events and timeouts. *)
Inductive Kind := KCommand | KEvent | KTimeout.
#[global] Instance Kind_eq_dec : EqDecision Kind.
Proof. solve_decision. Defined.
#[global] Instance Kind_countable : Countable Kind.
Proof.
  refine (inj_countable' (fun k => match k with KCommand => 0 | KEvent => 1 | KTimeout => 2 end)
                         (fun n => match n with 0 => KCommand | 1 => KEvent | _ => KTimeout end) _).
  by intros [].
Defined.

(** message.Type (enginekit/message): a Go type implementing exactly one of the
    message interfaces; here its kind and its name. *)
Definition MType : Type := Kind * string.

(** configkit.HandlerType. *)
Inductive HType := HTAggregate | HTProcess | HTIntegration | HTProjection.
#[global] Instance HType_eq_dec : EqDecision HType.
Proof. solve_decision. Defined.

(** The part of configkit.RichHandler that facts, origins and panics expose:
    Identity().Name and HandlerType(). *)
Record HId := mkHId { hid_name : string; hid_type : HType }.
#[global] Instance HId_eq_dec : EqDecision HId.
Proof. solve_decision. Defined.

(** Go [error] values.  [EUser] is returned by user code; [ECtx] is
    context.Context.Err(); [EWrap] is fmt.Errorf("%s %s: %w", name, type, err)
    (engine/engine.go:148-156, 276-284).  Combined errors built by
    multierr.Append are represented by the list of their parts ([] is nil), as
    multierr flattens. *)
Inductive Err :=
| EUser (s : string)
| ECtx (s : string)
| EWrap (h : HId) (e : Err).
#[global] Instance Err_eq_dec : EqDecision Err.
Proof. solve_decision. Defined.

Notation Errs := (list Err).

Section Base.
Context {P : Params}.

(** The part of a message that does not depend on its kind: its Go type name,
    its contents and the result of calling Validate() on it.  (Simplification:
    Validate() is a pure function of the message.) *)
Record Body := mkBody { b_name : string; b_data : D; b_invalid : option string }.

(** dogma.Message. *)
Record Msg := mkMsg { m_kind : Kind; m_body : Body }.

(** message.TypeOf. *)
Definition m_type (m : Msg) : MType := (m_kind m, b_name (m_body m)).
(** dogma.Message.Validate. *)
Definition m_invalid (m : Msg) : option string := b_invalid (m_body m).

(** envelope.Origin, envelope/origin.go:6-19. *)
Record Origin := mkOrigin { o_handler : HId; o_type : HType; o_instance : string }.

(** envelope.Envelope, envelope/envelope.go:10-36.  [e_sched] is the zero time
    for commands and events. *)
Record Env := mkEnv {
  e_id : string; e_cause : string; e_corr : string; e_msg : Msg;
  e_created : Z; e_sched : Z; e_origin : option Origin }.

(** envelope.NewCommand and envelope.NewEvent, envelope/envelope.go:41-78.  The
    check that the ID is non-empty is dropped: IDs are never empty. *)
Definition new_root (id : string) (m : Msg) (t : Z) : Env :=
  mkEnv id id id m t 0 None.

(** Envelope.NewCommand and Envelope.NewEvent, envelope/envelope.go:84-118. *)
Definition new_child (e : Env) (id : string) (m : Msg) (t : Z) (o : Origin) : Env :=
  mkEnv id (e_id e) (e_corr e) m t 0 (Some o).

(** Envelope.NewTimeout, envelope/envelope.go:125-141. *)
Definition new_timeout (e : Env) (id : string) (m : Msg) (t s : Z) (o : Origin) : Env :=
  mkEnv id (e_id e) (e_corr e) m t s (Some o).

(** What the Description of a panicx.UnexpectedBehavior says. *)
Inductive BDesc :=
| BEmptyID (t : MType)          (* routed a %s to an empty ID *)
| BNilRoot                      (* returned a nil root *)
| BUndeclared (t : MType)       (* not produced by this handler *)
| BInvalid (t : MType) (e : string). (* invalid message *)

(** Panic values.  [PUser]: any value user code panics with, other than
    [PRaw] = dogma.UnexpectedMessage.  [PUnexpMsg] and [PUnexpBeh] are
    panicx.UnexpectedMessage (engine/internal/panicx/unexpectedmessage.go:14-34)
    and panicx.UnexpectedBehavior (unexpectedbehavior.go:15-38) without the
    Implementation and Location fields.  [PEngine]: a string panic of the
    engine.  [PNil]: a nil dereference.  [PFatal]: an unrecovered panic in a
    goroutine started by the engine, which terminates the program. *)
Inductive PVal :=
| PUser (s : string)
| PRaw
| PUnexpMsg (h : HId) (iface meth : string) (m : Msg)
| PUnexpBeh (h : HId) (iface meth : string) (m : Msg) (d : BDesc)
| PEngine (s : string) (m : option Msg)
| PNil
| PFatal (v : PVal).

(** panicx.EnrichUnexpectedMessage, unexpectedmessage.go:50-79, applied to the
    panic (if any) of the function it calls. *)
Definition enrich (h : HId) (iface meth : string) (m : Msg) (v : option PVal) : option PVal :=
  match v with
  | Some PRaw => Some (PUnexpMsg h iface meth m)
  | _ => v
  end.

(** fact.HandlerSkipReason, fact/skip.go:5-20. *)
Inductive SkipReason := SRType | SRIndividual | SRConfiguration.

(** operationOptions.enabledHandlerTypes, engine/operationoption.go:114,122-127. *)
Record ETypes := mkETypes { et_agg : bool; et_proc : bool; et_int : bool; et_proj : bool }.
Definition et_get (e : ETypes) (t : HType) : bool :=
  match t with
  | HTAggregate => et_agg e | HTProcess => et_proc e
  | HTIntegration => et_int e | HTProjection => et_proj e
  end.
Definition et_set (e : ETypes) (t : HType) (b : bool) : ETypes :=
  match t with
  | HTAggregate => mkETypes b (et_proc e) (et_int e) (et_proj e)
  | HTProcess => mkETypes (et_agg e) b (et_int e) (et_proj e)
  | HTIntegration => mkETypes (et_agg e) (et_proc e) b (et_proj e)
  | HTProjection => mkETypes (et_agg e) (et_proc e) (et_int e) b
  end.

(** fact.Fact: the facts of fact/dispatch.go, tick.go, aggregate.go, process.go,
    integration.go, projection.go.  Roots are recorded by value at the time of
    notification (in Go they are pointers); log format and arguments are one
    string.  [Errs] is a combined error, [option Err] a single one. *)
Inductive Fact :=
(* fact/dispatch.go *)
| DispatchCycleBegun (e : Env) (now : Z) (et : ETypes) (eh : gmap string bool)
| DispatchCycleCompleted (e : Env) (err : Errs) (et : ETypes) (eh : gmap string bool)
| DispatchBegun (e : Env)
| DispatchCompleted (e : Env) (err : Errs)
| HandlingBegun (h : HId) (e : Env)
| HandlingCompleted (h : HId) (e : Env) (err : option Err)
| HandlingSkipped (h : HId) (e : Env) (r : SkipReason)
(* fact/tick.go *)
| TickCycleBegun (now : Z) (et : ETypes) (eh : gmap string bool)
| TickCycleCompleted (err : Errs) (et : ETypes) (eh : gmap string bool)
| TickBegun (h : HId)
| TickCompleted (h : HId) (err : option Err)
| TickSkipped (h : HId) (r : SkipReason)
(* fact/aggregate.go *)
| AggregateInstanceLoaded (h : HId) (i : string) (r : Root) (e : Env)
| AggregateInstanceNotFound (h : HId) (i : string) (e : Env)
| AggregateInstanceCreated (h : HId) (i : string) (r : Root) (e : Env)
| AggregateInstanceDestroyed (h : HId) (i : string) (r : Root) (e : Env)
| AggregateInstanceDestructionReverted (h : HId) (i : string) (r : Root) (e : Env)
| EventRecordedByAggregate (h : HId) (i : string) (r : Root) (e ev : Env)
| MessageLoggedByAggregate (h : HId) (i : string) (r : Root) (e : Env) (s : string)
(* fact/process.go *)
| ProcessInstanceLoaded (h : HId) (i : string) (r : Root) (e : Env)
| ProcessEventIgnored (h : HId) (e : Env)
| ProcessTimeoutIgnored (h : HId) (i : string) (e : Env)
| ProcessInstanceNotFound (h : HId) (i : string) (e : Env)
| ProcessInstanceBegun (h : HId) (i : string) (r : option Root) (e : Env)
| ProcessInstanceEnded (h : HId) (i : string) (r : Root) (e : Env)
| ProcessInstanceEndingReverted (h : HId) (i : string) (r : Root) (e : Env)
| CommandExecutedByProcess (h : HId) (i : string) (r : Root) (e c : Env)
| TimeoutScheduledByProcess (h : HId) (i : string) (r : Root) (e t : Env)
| MessageLoggedByProcess (h : HId) (i : string) (r : Root) (e : Env) (s : string)
(* fact/integration.go *)
| EventRecordedByIntegration (h : HId) (e ev : Env)
| MessageLoggedByIntegration (h : HId) (e : Env) (s : string)
(* fact/projection.go *)
| ProjectionCompactionBegun (h : HId)
| ProjectionCompactionCompleted (h : HId) (err : option Err)
| MessageLoggedByProjection (h : HId) (e : option Env) (s : string).

(** The environment of one engine operation: everything that is neither code
    of the engine nor code of the application.  Each function is consulted with
    a step number that is never reused, so it can describe any behaviour.

    - [o_ctx]: the result of ctx.Err() (nil, or an error with that text);
    - [o_lock]: the result of cosyne.Mutex.Lock(ctx), which is nil or ctx.Err();
    - [o_skew]: how many message IDs other goroutines allocate just before this
      one does;
    - [o_sched]: which of two goroutines runs next (true: the main one);
    - [o_sort]: the result of sort.Slice ordering by ScheduledFor;
    - [o_wall]: time.Now(). *)
Record Oracle := mkOracle {
  o_ctx : nat -> option string;
  o_lock : nat -> option string;
  o_skew : nat -> N;
  o_sched : nat -> bool;
  o_sort : list Env -> list Env;
  o_wall : Z }.

(** The state shared by everything: the number of message IDs allocated since
    the last reset (the uint64 of envelope/id.go:9-11 is this number modulo
    2^64), the user's world and the oracle step number. *)
Record GState := mkG { g_next : N; g_user : U; g_step : nat }.

(** strconv.FormatUint(n, 10) of the wrapped counter, envelope/id.go:15-18. *)
Definition id_string (n : N) : string := pretty (n mod 2 ^ 64)%N.

(** MessageIDGenerator.Next, envelope/id.go:14-19, preceded by the allocations of
    concurrent goroutines. *)
Definition next_id (o : Oracle) (g : GState) : GState * string :=
  let n := (g_next g + o_skew o (g_step g) + 1)%N in
  (mkG n (g_user g) (S (g_step g)), id_string n).

(** An atomic update of the user's world by user code. *)
Definition g_act (f : U -> U) (g : GState) : GState :=
  mkG (g_next g) (f (g_user g)) (g_step g).

(** A query of ctx.Err(). *)
Definition poll_ctx (o : Oracle) (g : GState) : GState * option Err :=
  (mkG (g_next g) (g_user g) (S (g_step g)), ECtx <$> o_ctx o (g_step g)).

(** The result of a controller's Handle() or Tick(): messages to dispatch and
    an error, or a panic. *)
Inductive HRes :=
| HRet (envs : list Env) (err : option Err)
| HPan (v : PVal).

End Base.
