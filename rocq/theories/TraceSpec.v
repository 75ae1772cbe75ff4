(** * Vocabulary for stating properties of histories.

    Everything here is a function of what an observer of the engine sees: the
    facts and the calls of Reset.  Nothing refers to the engine's state. *)
From Verif Require Export EngineModel.

Section TraceSpec.
Context {P : Params}.

(** A history: a client performs operations on a new engine of a well-formed
    application; [evs] is what can be observed, [fin] is false if the last
    operation is still in progress. *)
Definition history (c : Config) (u : U) (ops : list Op) (st : EState) (evs : list Ev) (fin : bool) : Prop :=
  app_ok c /\ Forall (op_ok c) ops /\ run_ops c ops (e_init c u) = (st, evs, fin).

(** The facts since the last call of Reset. *)
Definition since_reset (evs : list Ev) : list Fact :=
  foldl (fun fs ev => match ev with EvFact f => fs ++ [f] | EvReset => [] end) [] evs.

(** [f] is notified just after [pre] (counting from the last Reset). *)
Definition occurs (evs : list Ev) (pre : list Fact) (f : Fact) : Prop :=
  exists before after, evs = before ++ EvFact f :: after /\ pre = since_reset before.

(** What is produced by a handler: handler, instance, the message being handled
    and the new message. *)
Definition produced (f : Fact) : option (HId * string * Env * Env) :=
  match f with
  | EventRecordedByAggregate h i _ e ev => Some (h, i, e, ev)
  | CommandExecutedByProcess h i _ e c => Some (h, i, e, c)
  | TimeoutScheduledByProcess h i _ e t => Some (h, i, e, t)
  | EventRecordedByIntegration h e ev => Some (h, "", e, ev)
  | _ => None
  end.

(** The kind of message a production fact announces. *)
Definition produced_kind (f : Fact) : option Kind :=
  match f with
  | EventRecordedByAggregate _ _ _ _ _ | EventRecordedByIntegration _ _ _ => Some KEvent
  | CommandExecutedByProcess _ _ _ _ _ => Some KCommand
  | TimeoutScheduledByProcess _ _ _ _ _ => Some KTimeout
  | _ => None
  end.

(** The messages that appear for the first time: dispatched ones and produced
    ones. *)
Definition newly (f : Fact) : list Env :=
  match f with
  | DispatchCycleBegun e _ _ _ => [e]
  | _ => match produced f with Some (_, _, _, ev) => [ev] | None => [] end
  end.
Definition fresh_of (fs : list Fact) : list Env := foldl (fun l f => l ++ newly f) [] fs.

(** The engine time of the operation in progress. *)
Definition engine_time_step (t : option Z) (f : Fact) : option Z :=
  match f with
  | DispatchCycleBegun _ now _ _ | TickCycleBegun now _ _ => Some now
  | _ => t
  end.
Definition engine_time (fs : list Fact) : option Z := foldl engine_time_step None fs.

(** The message whose dispatch is in progress, if the operation is a Dispatch. *)
Definition cycle_root_step (r : option Env) (f : Fact) : option Env :=
  match f with
  | DispatchCycleBegun e _ _ _ => Some e
  | TickCycleBegun _ _ _ => None
  | _ => r
  end.
Definition cycle_root (fs : list Fact) : option Env := foldl cycle_root_step None fs.

(** The handler that is handling a message, and that message. *)
Definition in_handling_step (c : option (HId * Env)) (f : Fact) : option (HId * Env) :=
  match f with
  | HandlingBegun h e => Some (h, e)
  | HandlingCompleted _ _ _ | DispatchCycleBegun _ _ _ _ | TickCycleBegun _ _ _ => None
  | _ => c
  end.
Definition in_handling (fs : list Fact) : option (HId * Env) := foldl in_handling_step None fs.

(** The timeouts scheduled so far, with the handler and the instance. *)
Definition scheduled_step (l : list (HId * string * Env)) (f : Fact) : list (HId * string * Env) :=
  match f with
  | TimeoutScheduledByProcess h i _ _ t => l ++ [(h, i, t)]
  | _ => l
  end.
Definition scheduled (fs : list Fact) : list (HId * string * Env) := foldl scheduled_step [] fs.

(** All envelopes mentioned by a fact. *)
Definition fact_envs (f : Fact) : list Env :=
  match f with
  | DispatchCycleBegun e _ _ _ | DispatchCycleCompleted e _ _ _ | DispatchBegun e | DispatchCompleted e _
  | HandlingBegun _ e | HandlingCompleted _ e _ | HandlingSkipped _ e _ => [e]
  | TickCycleBegun _ _ _ | TickCycleCompleted _ _ _ | TickBegun _ | TickCompleted _ _ | TickSkipped _ _ => []
  | AggregateInstanceLoaded _ _ _ e | AggregateInstanceNotFound _ _ e | AggregateInstanceCreated _ _ _ e
  | AggregateInstanceDestroyed _ _ _ e | AggregateInstanceDestructionReverted _ _ _ e
  | MessageLoggedByAggregate _ _ _ e _ => [e]
  | EventRecordedByAggregate _ _ _ e ev => [e; ev]
  | ProcessInstanceLoaded _ _ _ e | ProcessEventIgnored _ e | ProcessTimeoutIgnored _ _ e
  | ProcessInstanceNotFound _ _ e | ProcessInstanceBegun _ _ _ e | ProcessInstanceEnded _ _ _ e
  | ProcessInstanceEndingReverted _ _ _ e | MessageLoggedByProcess _ _ _ e _ => [e]
  | CommandExecutedByProcess _ _ _ e c => [e; c]
  | TimeoutScheduledByProcess _ _ _ e t => [e; t]
  | EventRecordedByIntegration _ e ev => [e; ev]
  | MessageLoggedByIntegration _ e _ => [e]
  | ProjectionCompactionBegun _ | ProjectionCompactionCompleted _ _ => []
  | MessageLoggedByProjection _ e _ => match e with Some e => [e] | None => [] end
  end.

(** [Descends l e r]: in the list [l] of messages, ordered by age, following the
    causes of [e] through ever older messages leads to the root [r]. *)
Inductive Descends : list Env -> Env -> Env -> Prop :=
| Descends_root l r : r ∈ l -> e_cause r = e_id r -> e_corr r = e_id r -> e_origin r = None ->
    Descends l r r
| Descends_child older e newer p r : p ∈ older -> e_cause e = e_id p ->
    Descends older p r -> Descends (older ++ e :: newer) e r.

End TraceSpec.
