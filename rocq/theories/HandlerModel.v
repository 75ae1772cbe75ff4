(** * User code: message handlers.

    The dogma handler interfaces.  A handler method is an arbitrary interaction
    tree: a well-founded tree whose nodes are the calls user code can make. *)
From Verif Require Export BaseModel.

Section Handlers.
Context {P : Params}.

(** dogma.AggregateMessageHandler.HandleCommand(r, s, m).
    - [AAct f k]: atomically apply [f] to the user's world and go on with its old
      contents;
    - [AMutate f k]: replace the contents of the root [r] by [f] of it and go on
      with the new contents ([f := id] reads it);
    - [ARecord b k]: s.RecordEvent of an event; [k] is told whether the call
      panicked (a handler that does not recover re-panics);
    - [ADestroy], [ALog]: s.Destroy(), s.Log(). *)
Inductive AProg :=
| ARet
| APanic (v : PVal)
| AAct (f : U -> U) (k : U -> AProg)
| AMutate (f : Root -> Root) (k : Root -> AProg)
| ARecord (b : Body) (k : option PVal -> AProg)
| ADestroy (k : AProg)
| ALog (s : string) (k : AProg).

(** dogma.AggregateMessageHandler and dogma.AggregateRoot.  RouteCommandToInstance
    and New are pure; ApplyEvent may panic after having changed the root. *)
Record AggImpl := mkAgg {
  ag_route : Msg -> string + PVal;
  ag_new : option Root;
  ag_apply : Root -> Msg -> Root * option PVal;
  ag_handle : string -> Msg -> AProg }.

(** dogma.ProcessMessageHandler.HandleEvent / HandleTimeout(ctx, r, s, m). *)
Inductive PProg :=
| PRet (e : option Err)
| PPanic (v : PVal)
| PAct (f : U -> U) (k : U -> PProg)
| PMutate (f : Root -> Root) (k : Root -> PProg)
| PExecute (b : Body) (k : option PVal -> PProg)
| PSchedule (b : Body) (t : Z) (k : option PVal -> PProg)
| PEnd (k : PProg)
| PLog (s : string) (k : PProg).

(** dogma.ProcessMessageHandler.  RouteEventToInstance may use the user's world;
    it returns (id, ok, err) or panics.  The handling methods get the instance ID
    and RecordedAt() / ScheduledFor(). *)
Record ProcImpl := mkProc {
  pr_route : Msg -> U -> U * ((string * bool * option Err) + PVal);
  pr_new : option Root;
  pr_event : string -> Z -> Msg -> PProg;
  pr_timeout : string -> Z -> Msg -> PProg }.

(** dogma.IntegrationMessageHandler.HandleCommand(ctx, s, m). *)
Inductive IProg :=
| IRet (e : option Err)
| IPanic (v : PVal)
| IAct (f : U -> U) (k : U -> IProg)
| IRecord (b : Body) (k : option PVal -> IProg)
| ILog (s : string) (k : IProg).

Record IntImpl := mkInt { in_handle : Msg -> IProg }.

(** Methods of dogma.ProjectionMessageHandler. *)
Inductive JProg (A : Type) :=
| JRet (a : A)
| JPanic (v : PVal)
| JAct (f : U -> U) (k : U -> JProg A)
| JLog (s : string) (k : JProg A).

(** dogma.ProjectionMessageHandler: ResourceVersion(res), HandleEvent(res,
    current, next, scope, event), CloseResource(res) and Compact(scope). *)
Record ProjImpl := mkProj {
  pj_version : string -> U -> U * ((string * option Err) + PVal);
  pj_handle : string -> string -> string -> Z -> Msg -> JProg (bool * option Err);
  pj_close : string -> U -> U * (option Err + PVal);
  pj_compact : Z -> JProg (option Err) }.

Inductive Impl :=
| ImplAgg (a : AggImpl)
| ImplProc (p : ProcImpl)
| ImplInt (i : IntImpl)
| ImplProj (j : ProjImpl).

(** configkit.RichHandler: name, MessageTypes() split into consumed and produced
    ones, IsDisabled() and the handler itself. *)
Record Handler := mkHandler {
  h_name : string;
  h_impl : Impl;
  h_consumed : list MType;
  h_produced : list MType;
  h_disabled : bool }.

(** configkit.Handler.HandlerType. *)
Definition h_type (h : Handler) : HType :=
  match h_impl h with
  | ImplAgg _ => HTAggregate | ImplProc _ => HTProcess
  | ImplInt _ => HTIntegration | ImplProj _ => HTProjection
  end.
Definition h_id (h : Handler) : HId := mkHId (h_name h) (h_type h).

(** MessageTypes()[mt].IsConsumed / IsProduced. *)
Definition consumes (h : Handler) (t : MType) : bool := bool_decide (t ∈ h_consumed h).
Definition produces (h : Handler) (t : MType) : bool := bool_decide (t ∈ h_produced h).

End Handlers.
Arguments JRet {P A} a.
Arguments JPanic {P A} v.
Arguments JAct {P A} f k.
Arguments JLog {P A} s k.
