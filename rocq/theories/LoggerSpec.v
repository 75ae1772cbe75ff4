(** * Vocabulary for log lines. *)
From stdpp Require Export sorting.
From Verif Require Export LoggerModel InflectSpec.
Open Scope nat_scope.

(** Byte order of strings. *)
Fixpoint text_le (a b : text) : Prop :=
  match a, b with
  | [], _ => True
  | _ :: _, [] => False
  | x :: a, y :: b => nat_of_ascii x < nat_of_ascii y \/ x = y /\ text_le a b
  end.
Definition string_le (a b : string) : Prop := text_le (txt a) (txt b).

(** [l] enumerates the keys of the map [m] in some order. *)
Definition enumerates (l : list string) (m : gmap string bool) : Prop :=
  NoDup l /\ forall n, n ∈ l <-> is_Some (m !! n).
(** A correct sorting function. *)
Definition sorts (sort : list string -> list string) : Prop :=
  forall l, sort l ≡ₚ l /\ Sorted string_le (sort l).

(** The types of handlers, in the plural. *)
Definition handlers_of_type (t : HType) : text :=
  txt (match t with HTAggregate => "aggregate" | HTProcess => "processe" | HTIntegration => "integration"
       | HTProjection => "projection" end) ++ txt "s".

(** The texts of a line: those that are not empty, separated. *)
Fixpoint joined (sep : text) (ts : list text) : text :=
  match ts with [] => [] | [t] => t | t :: ts => t ++ sep ++ joined sep ts end.
Definition not_empty (ts : list text) : list text := filter (fun t => t <> []) ts.
(** An icon in its cell. *)
Definition cell (i : text) : text := match i with [] => txt " " | _ => i end.
(** How an ID is shown: [--] if there is none, at least two characters otherwise. *)
Definition shown_id (s : string) : text :=
  match txt s with [] => txt "--" | [c] => txt "0" ++ [c] | t => t end.

Section Facts.
Context {P : Params}.

(** The message a fact is about: the one that was produced, or the one handled. *)
Definition subject (f : Fact) : option Env :=
  match f with
  | EventRecordedByAggregate _ _ _ _ x | CommandExecutedByProcess _ _ _ _ x | TimeoutScheduledByProcess _ _ _ _ x
  | EventRecordedByIntegration _ _ x => Some x
  | DispatchCycleBegun e _ _ _ | DispatchCycleCompleted e _ _ _ | DispatchBegun e | DispatchCompleted e _
  | HandlingBegun _ e | HandlingCompleted _ e _ | HandlingSkipped _ e _
  | AggregateInstanceLoaded _ _ _ e | AggregateInstanceNotFound _ _ e | AggregateInstanceCreated _ _ _ e
  | AggregateInstanceDestroyed _ _ _ e | AggregateInstanceDestructionReverted _ _ _ e
  | MessageLoggedByAggregate _ _ _ e _ | ProcessInstanceLoaded _ _ _ e | ProcessEventIgnored _ e
  | ProcessTimeoutIgnored _ _ e | ProcessInstanceNotFound _ _ e | ProcessInstanceBegun _ _ _ e
  | ProcessInstanceEnded _ _ _ e | ProcessInstanceEndingReverted _ _ _ e | MessageLoggedByProcess _ _ _ e _
  | MessageLoggedByIntegration _ e _ => Some e
  | MessageLoggedByProjection _ e _ => e
  | _ => None
  end.

(** Facts that are not logged: the beginning and end of things that went well, and
    handlers skipped by a tick. *)
Inductive silent : Fact -> Prop :=
| si_cycle e err et eh : silent (DispatchCycleCompleted e err et eh)
| si_dispatch e err : silent (DispatchCompleted e err)
| si_begun h e : silent (HandlingBegun h e)
| si_ok h e : silent (HandlingCompleted h e None)
| si_tick err et eh : silent (TickCycleCompleted err et eh)
| si_tick_begun h : silent (TickBegun h)
| si_tick_ok h : silent (TickCompleted h None)
| si_tick_skipped h r : silent (TickSkipped h r)
| si_compaction h : silent (ProjectionCompactionBegun h).

(** The fact says that a handler produced a message. *)
Definition produces (f : Fact) : bool :=
  match f with
  | EventRecordedByAggregate _ _ _ _ _ | CommandExecutedByProcess _ _ _ _ _ | TimeoutScheduledByProcess _ _ _ _ _
  | EventRecordedByIntegration _ _ _ => true
  | _ => false
  end.
(** The failure of a handler the fact tells of. *)
Definition failure (f : Fact) : option Err :=
  match f with HandlingCompleted _ _ err | TickCompleted _ err | ProjectionCompactionCompleted _ err => err | _ => None end.
(** The handler the fact is about, and its type. *)
Definition handler_type (f : Fact) : option HType :=
  match f with
  | DispatchCycleBegun _ _ _ _ | DispatchCycleCompleted _ _ _ _ | DispatchBegun _ | DispatchCompleted _ _
  | TickCycleBegun _ _ _ | TickCycleCompleted _ _ _ => None
  | HandlingBegun h _ | HandlingCompleted h _ _ | HandlingSkipped h _ _ | TickBegun h | TickCompleted h _
  | TickSkipped h _ => Some (hid_type h)
  | AggregateInstanceLoaded _ _ _ _ | AggregateInstanceNotFound _ _ _ | AggregateInstanceCreated _ _ _ _
  | AggregateInstanceDestroyed _ _ _ _ | AggregateInstanceDestructionReverted _ _ _ _
  | EventRecordedByAggregate _ _ _ _ _ | MessageLoggedByAggregate _ _ _ _ _ => Some HTAggregate
  | EventRecordedByIntegration _ _ _ | MessageLoggedByIntegration _ _ _ => Some HTIntegration
  | ProjectionCompactionBegun _ | ProjectionCompactionCompleted _ _ | MessageLoggedByProjection _ _ _ => Some HTProjection
  | _ => Some HTProcess
  end.
Definition handler_of (f : Fact) : option HId :=
  match f with
  | HandlingBegun h _ | HandlingCompleted h _ _ | HandlingSkipped h _ _ | TickBegun h | TickCompleted h _ | TickSkipped h _
  | AggregateInstanceLoaded h _ _ _ | AggregateInstanceNotFound h _ _ | AggregateInstanceCreated h _ _ _
  | AggregateInstanceDestroyed h _ _ _ | AggregateInstanceDestructionReverted h _ _ _
  | EventRecordedByAggregate h _ _ _ _ | MessageLoggedByAggregate h _ _ _ _ | ProcessInstanceLoaded h _ _ _
  | ProcessEventIgnored h _ | ProcessTimeoutIgnored h _ _ | ProcessInstanceNotFound h _ _ | ProcessInstanceBegun h _ _ _
  | ProcessInstanceEnded h _ _ _ | ProcessInstanceEndingReverted h _ _ _ | CommandExecutedByProcess h _ _ _ _
  | TimeoutScheduledByProcess h _ _ _ _ | MessageLoggedByProcess h _ _ _ _ | EventRecordedByIntegration h _ _
  | MessageLoggedByIntegration h _ _ | ProjectionCompactionBegun h | ProjectionCompactionCompleted h _
  | MessageLoggedByProjection h _ _ => Some h
  | _ => None
  end.
(** The instance the fact is about. *)
Definition instance_of (f : Fact) : option string :=
  match f with
  | AggregateInstanceLoaded _ i _ _ | AggregateInstanceNotFound _ i _ | AggregateInstanceCreated _ i _ _
  | AggregateInstanceDestroyed _ i _ _ | AggregateInstanceDestructionReverted _ i _ _
  | EventRecordedByAggregate _ i _ _ _ | MessageLoggedByAggregate _ i _ _ _ | ProcessInstanceLoaded _ i _ _
  | ProcessTimeoutIgnored _ i _ | ProcessInstanceNotFound _ i _ | ProcessInstanceBegun _ i _ _
  | ProcessInstanceEnded _ i _ _ | ProcessInstanceEndingReverted _ i _ _ | CommandExecutedByProcess _ i _ _ _
  | TimeoutScheduledByProcess _ i _ _ _ | MessageLoggedByProcess _ i _ _ _ => Some i
  | _ => None
  end.
(** What a handler wrote to the log. *)
Definition written (f : Fact) : option string :=
  match f with
  | MessageLoggedByAggregate _ _ _ _ s | MessageLoggedByProcess _ _ _ _ s | MessageLoggedByIntegration _ _ s
  | MessageLoggedByProjection _ _ s => Some s
  | _ => None
  end.

(** The symbol of the direction of the message. *)
Definition direction_symbol (f : Fact) : text :=
  match subject f with
  | None => txt " "
  | Some _ => if produces f then txt "▲" else match failure f with Some _ => txt "▽" | None => txt "▼" end
  end.
(** The symbol of whoever the line is about. *)
Definition actor_symbol (f : Fact) : text :=
  match handler_type f with
  | None => txt "⚙" | Some HTAggregate => txt "∴" | Some HTProcess => txt "≡"
  | Some HTIntegration => txt "⨝" | Some HTProjection => txt "Σ"
  end.
Definition failure_symbol (f : Fact) : text := match failure f with Some _ => txt "✖" | None => txt " " end.
(** The handler, and the instance if there is one. *)
Definition actor (f : Fact) : list text :=
  match handler_of f, instance_of f with
  | Some h, Some i => [txt (hid_name h) ++ txt " " ++ txt i]
  | Some h, None => [txt (hid_name h)]
  | None, _ => []
  end.
End Facts.
