{"id": "C01", "title": "Message IDs are unique", "statement": "Between two calls to Engine.Reset, no two messages that enter or are produced inside the engine (dispatched commands and events, recorded events, executed commands, scheduled timeouts) carry the same Envelope.MessageID, as long as fewer than 2^64 IDs have been allocated.", "quantifier": "every application configuration, every (arbitrary, possibly panicking, recovering and stateful) handler program, and every finite sequence of Dispatch/Tick/Reset calls with arbitrary options, clocks and cancellation points, with other goroutines allocating IDs in between", "why_tests_cant": "The number of messages, the operation sequence and the interleaving of allocations are unbounded.", "anchors": ["envelope/id.go: MessageIDGenerator.Next, Reset", "engine/engine.go: Engine.Dispatch, Engine.Tick, Engine.dispatch, Engine.handle"]}
{"id": "C02", "title": "Correlation IDs identify the root message", "statement": "Every envelope that appears in any fact emitted during Engine.Dispatch(m) has the MessageID of the dispatched message as its CorrelationID.", "quantifier": "every application, engine state, message, option set, queue length and cancellation point", "why_tests_cant": "A test samples one cascade; the claim is about cascades of every depth and fan-out.", "anchors": ["envelope/envelope.go: NewCommand, NewEvent, Envelope.NewCommand, Envelope.NewEvent, Envelope.NewTimeout", "engine/engine.go: Engine.Dispatch, Engine.Tick, Engine.dispatch, Engine.handle"]}
{"id": "C03", "title": "Causation IDs form a tree rooted at the dispatched message", "statement": "A dispatched message is its own cause and correlation; every message produced by a handler has as CausationID the MessageID of the message that handler was handling and inherits its CorrelationID; hence following CausationID from any message produced in a history reaches a root after finitely many strictly older messages.", "quantifier": "every application configuration, every (arbitrary, possibly panicking, recovering and stateful) handler program, and every finite sequence of Dispatch/Tick/Reset calls with arbitrary options, clocks and cancellation points", "why_tests_cant": "Tests check one hop; the chain property is an induction over the whole history.", "anchors": ["envelope/envelope.go: NewCommand, NewEvent, Envelope.NewCommand, Envelope.NewEvent, Envelope.NewTimeout", "engine/engine.go: Engine.Dispatch, Engine.Tick, Engine.dispatch, Engine.handle"]}
{"id": "C04", "title": "Produced envelopes are stamped with engine time and origin", "statement": "Every message produced by a handler carries CreatedAt equal to the engine time of the operation in progress, and an Origin naming the producing handler, its handler type and (for aggregates and processes) the instance ID; a timeout's ScheduledFor is exactly the time requested.", "quantifier": "every application configuration, every (arbitrary, possibly panicking, recovering and stateful) handler program, and every finite sequence of Dispatch/Tick/Reset calls with arbitrary options, clocks and cancellation points", "why_tests_cant": "Must hold for every handler program and every interleaving of scope calls.", "anchors": ["envelope/envelope.go: NewCommand, NewEvent, Envelope.NewCommand, Envelope.NewEvent, Envelope.NewTimeout", "engine/internal/aggregate/controller.go: Controller.Handle; engine/internal/aggregate/scope.go", "engine/internal/process/controller.go: Controller.Handle, Controller.Tick, update, delete; engine/internal/process/scope.go", "engine/internal/integration/controller.go: Controller.Handle; engine/internal/integration/scope.go"]}
{"id": "C05", "title": "Aggregate state is the replay of its recorded events", "statement": "When a command reaches an aggregate instance, the root given to HandleCommand is New() with ApplyEvent folded, in order, over exactly the events that instance recorded in earlier successfully completed commands since it was last destroyed or the engine was reset.", "quantifier": "every application configuration, every (arbitrary, possibly panicking, recovering and stateful) handler program, and every finite sequence of Dispatch/Tick/Reset calls with arbitrary options, clocks and cancellation points", "why_tests_cant": "Histories, instance counts and event counts are unbounded.", "anchors": ["engine/internal/aggregate/controller.go: Controller.Handle; engine/internal/aggregate/scope.go"]}
{"id": "C06", "title": "Aggregate commands are atomic", "statement": "If handling a command panics, no event recorded during that command becomes part of the instance's history, no instance is created or destroyed, and the next command sees the state from before the failed one.", "quantifier": "every aggregate handler program, every engine state, every point at which the panic happens", "why_tests_cant": "The crash point is universally quantified.", "anchors": ["engine/internal/aggregate/controller.go: Controller.Handle; engine/internal/aggregate/scope.go"]}
{"id": "C07", "title": "Direct mutation of an aggregate root never persists", "statement": "Changes a handler makes to the aggregate root other than through RecordEvent are invisible to every later command.", "quantifier": "every handler program that mutates its root arbitrarily, every later history", "why_tests_cant": "Needs all mutations and all continuations.", "anchors": ["engine/internal/aggregate/controller.go: Controller.Handle; engine/internal/aggregate/scope.go"]}
{"id": "C08", "title": "Destroying an aggregate discards its history", "statement": "If the last existence-changing call in a command is Destroy on an existing instance, the next command for that instance finds no instance and an empty history; a RecordEvent after Destroy keeps the whole earlier history.", "quantifier": "every sequence of RecordEvent/Destroy calls in one command and every prior history", "why_tests_cant": "Every interleaving of scope calls.", "anchors": ["engine/internal/aggregate/controller.go: Controller.Handle; engine/internal/aggregate/scope.go"]}
{"id": "C09", "title": "Aggregate and process instances are isolated", "statement": "Handling a message for one instance of one handler changes neither the stored state of other instances of that handler nor the stored state of any other handler. A Tick changes nothing of instances that none of its facts name either, except that timeouts that are due by then may be gone.", "quantifier": "every handler program, every engine state, every pair of distinct instances or handlers", "why_tests_cant": "Pairs and states are unbounded.", "anchors": ["engine/internal/aggregate/controller.go: Controller.Handle; engine/internal/aggregate/scope.go", "engine/internal/process/controller.go: Controller.Handle, Controller.Tick, update, delete; engine/internal/process/scope.go", "engine/engine.go: Engine.Dispatch, Engine.Tick, Engine.dispatch, Engine.handle"]}
{"id": "C10", "title": "Undeclared and invalid messages are never produced", "statement": "No handler can record, execute or schedule a message whose type it did not declare as produced or whose Validate() fails: the scope call panics with UnexpectedBehavior, emits no production fact, allocates no ID and enqueues nothing, even if the handler recovers from the panic.", "quantifier": "every application configuration, every (arbitrary, possibly panicking, recovering and stateful) handler program, and every finite sequence of Dispatch/Tick/Reset calls with arbitrary options, clocks and cancellation points", "why_tests_cant": "Quantifies over handler programs that recover and continue.", "anchors": ["engine/internal/aggregate/controller.go: Controller.Handle; engine/internal/aggregate/scope.go", "engine/internal/process/controller.go: Controller.Handle, Controller.Tick, update, delete; engine/internal/process/scope.go", "engine/internal/integration/controller.go: Controller.Handle; engine/internal/integration/scope.go", "engine/internal/panicx/unexpectedbehavior.go: UnexpectedBehavior"]}
{"id": "C11", "title": "In-command aggregate root agrees with the persisted history", "statement": "For handlers that change the root only through RecordEvent, the root reported in facts after any sequence of scope calls is New() with the events of the instance applied (those it will have if the command completes now), as long as no Destroy has taken effect in the current command; after a Destroy it is New() with the events recorded since. Hence after Destroy followed by RecordEvent it differs from the root the next command is given, because the whole old history is kept (shown by a witness).", "quantifier": "every sequence of RecordEvent/Destroy calls in one command", "why_tests_cant": "Needs a universally quantified call sequence; a counterexample refutes it.", "anchors": ["engine/internal/aggregate/controller.go: Controller.Handle; engine/internal/aggregate/scope.go"]}
{"id": "C12", "title": "An aggregate instance exists iff it has recorded events", "statement": "For handlers that do not recover from panics raised by RecordEvent, an instance is stored iff its history is non-empty. (A recovering handler can create an instance with no events.)", "quantifier": "every application configuration, every (arbitrary, possibly panicking, recovering and stateful) handler program, and every finite sequence of Dispatch/Tick/Reset calls with arbitrary options, clocks and cancellation points", "why_tests_cant": "Invariant over unbounded histories.", "anchors": ["engine/internal/aggregate/controller.go: Controller.Handle; engine/internal/aggregate/scope.go"]}
{"id": "C13", "title": "Timeouts are never handled early", "statement": "Whenever a timeout message is delivered to a process handler, its ScheduledFor time is not after the engine time of the operation in progress.", "quantifier": "every application configuration, every (arbitrary, possibly panicking, recovering and stateful) handler program, and every finite sequence of Dispatch/Tick/Reset calls with arbitrary options, clocks and cancellation points", "why_tests_cant": "All schedules and clock movements, including time going backwards between operations.", "anchors": ["engine/internal/process/controller.go: Controller.Handle, Controller.Tick, update, delete; engine/internal/process/scope.go", "engine/engine.go: Engine.Dispatch, Engine.Tick, Engine.dispatch, Engine.handle"]}
{"id": "C14", "title": "Timeouts are neither lost nor duplicated", "statement": "Each timeout scheduled by a successfully completed, non-ending handling is at every later point exactly one of: still pending, taken for delivery once, or discarded because its instance ended (or the engine was reset).", "quantifier": "every application configuration, every (arbitrary, possibly panicking, recovering and stateful) handler program, and every finite sequence of Dispatch/Tick/Reset calls with arbitrary options, clocks and cancellation points", "why_tests_cant": "A conservation law over unbounded histories.", "anchors": ["engine/internal/process/controller.go: Controller.Handle, Controller.Tick, update, delete; engine/internal/process/scope.go"]}
{"id": "C15", "title": "Pending timeouts belong to live instances", "statement": "At every point between operations every pending timeout of a process handler belongs to an instance of that handler that currently exists, and is due strictly after the time at which it was scheduled.", "quantifier": "every application configuration, every (arbitrary, possibly panicking, recovering and stateful) handler program, and every finite sequence of Dispatch/Tick/Reset calls with arbitrary options, clocks and cancellation points", "why_tests_cant": "Invariant over unbounded histories.", "anchors": ["engine/internal/process/controller.go: Controller.Handle, Controller.Tick, update, delete; engine/internal/process/scope.go"]}
{"id": "C16", "title": "Timeouts fire in chronological order", "statement": "The timeouts a single Tick takes from a process handler are exactly those due at or before the engine time and are delivered in non-decreasing ScheduledFor order; those left behind are all due later.", "quantifier": "every reachable engine state, every tick time, every sorting routine that returns a sorted permutation", "why_tests_cant": "All sets of timeouts, including ties under the unstable sort.", "anchors": ["engine/internal/process/controller.go: Controller.Handle, Controller.Tick, update, delete; engine/internal/process/scope.go"]}
{"id": "C17", "title": "Timeouts return to their origin", "statement": "A timeout is delivered only to the handler that scheduled it and only to the instance that scheduled it; if that instance no longer exists it is ignored with ProcessTimeoutIgnored and no handler method is called.", "quantifier": "every application configuration, every (arbitrary, possibly panicking, recovering and stateful) handler program, and every finite sequence of Dispatch/Tick/Reset calls with arbitrary options, clocks and cancellation points", "why_tests_cant": "All routing configurations and histories.", "anchors": ["engine/engine.go: Engine.Dispatch, Engine.Tick, Engine.dispatch, Engine.handle", "engine/internal/process/controller.go: Controller.Handle, Controller.Tick, update, delete; engine/internal/process/scope.go"]}
{"id": "C18", "title": "Ending a process discards its timeouts", "statement": "After a process instance ends, no timeout it had scheduled is dispatched by any later operation. The claim does not extend to the operation in which it ended: a timeout that was due when it was scheduled waits in the dispatch queue, and if a further event begins the instance again it is handled by the new instance (refuted by a witness).", "quantifier": "every application configuration, every (arbitrary, possibly panicking, recovering and stateful) handler program, and every finite sequence of Dispatch/Tick/Reset calls with arbitrary options, clocks and cancellation points", "why_tests_cant": "Needs an adversarial ordering of events; refuted by a witness.", "anchors": ["engine/internal/process/controller.go: Controller.Handle, Controller.Tick, update, delete; engine/internal/process/scope.go", "engine/engine.go: Engine.Dispatch, Engine.Tick, Engine.dispatch, Engine.handle"]}
{"id": "C19", "title": "A failed process handling has no engine-visible effect", "statement": "If HandleEvent/HandleTimeout returns an error (or panics), none of the commands and timeouts it produced are dispatched or stored, no instance is created and none is ended.", "quantifier": "every process handler program, every state, every failure point", "why_tests_cant": "Universally quantified failure points.", "anchors": ["engine/internal/process/controller.go: Controller.Handle, Controller.Tick, update, delete; engine/internal/process/scope.go"]}
{"id": "C20", "title": "Process ending and un-ending", "statement": "After a handling in which End was called after the last ExecuteCommand/ScheduleTimeout, the instance is gone and its next event begins a new instance with a fresh root; any later ExecuteCommand/ScheduleTimeout reverts the ending and the instance is stored.", "quantifier": "every sequence of scope calls", "why_tests_cant": "All interleavings of scope calls.", "anchors": ["engine/internal/process/controller.go: Controller.Handle, Controller.Tick, update, delete; engine/internal/process/scope.go"]}
{"id": "C21", "title": "Process event routing", "statement": "An event not routed to an instance causes exactly a ProcessEventIgnored fact and no other effect; a routed event loads the existing instance iff it exists and otherwise begins one with a fresh root.", "quantifier": "every process handler, event, state", "why_tests_cant": "All states and routing functions.", "anchors": ["engine/internal/process/controller.go: Controller.Handle, Controller.Tick, update, delete; engine/internal/process/scope.go"]}
{"id": "C22", "title": "A failing process handler leaves its root untouched", "statement": "The root handed to HandleEvent/HandleTimeout is the stored root of the instance, or a fresh one; after a success that does not end the instance the root is stored as the method left it; after an error or panic no instance is created, and an existing instance keeps its root unless the method changed it in place. The claim does not extend to in-place changes: they survive an error (refuted by a witness).", "quantifier": "every process handler program", "why_tests_cant": "Refuted by a witness; the positive part (new instances) is universally quantified.", "anchors": ["engine/internal/process/controller.go: Controller.Handle, Controller.Tick, update, delete; engine/internal/process/scope.go"]}
{"id": "C23", "title": "Due timeouts survive cancellation", "statement": "Every timeout of an enabled process handler that is due when Tick is called is dispatched by that Tick, unless the context is cancelled or a handler panics. The claim does not extend to cancelled Ticks: Tick removes due timeouts from the store before dispatching them, so a cancelled Tick loses them (refuted by a witness).", "quantifier": "every engine state, every cancellation point", "why_tests_cant": "Cancellation points are universally quantified.", "anchors": ["engine/internal/process/controller.go: Controller.Handle, Controller.Tick, update, delete; engine/internal/process/scope.go", "engine/engine.go: Engine.Dispatch, Engine.Tick, Engine.dispatch, Engine.handle"]}
{"id": "C24", "title": "Integration events survive the handler's own error", "statement": "Events an integration records before returning an error are still dispatched (in order), and the error is still reported.", "quantifier": "every integration handler program and engine state", "why_tests_cant": "All programs and failure points.", "anchors": ["engine/internal/integration/controller.go: Controller.Handle; engine/internal/integration/scope.go", "engine/engine.go: Engine.Dispatch, Engine.Tick, Engine.dispatch, Engine.handle"]}
{"id": "C25", "title": "Projection compaction interval", "statement": "A Tick compacts a projection iff at least one hour of engine time has passed since the start of its last Tick-driven compaction, hence two Tick-driven compactions of one handler are never less than an hour of engine time apart.", "quantifier": "every application configuration, every (arbitrary, possibly panicking, recovering and stateful) handler program, and every finite sequence of Dispatch/Tick/Reset calls with arbitrary options, clocks and cancellation points", "why_tests_cant": "Arbitrary clock sequences including reversal.", "anchors": ["engine/internal/projection/controller.go: Controller.Handle, Controller.Tick; engine/internal/projection/scope.go"]}
{"id": "C26", "title": "Projection OCC protocol", "statement": "A projection's HandleEvent is invoked for an event iff ResourceVersion(message ID) succeeds with an empty version, always with an empty current and a non-empty next version; CloseResource is called iff HandleEvent reported success; errors are prioritised ResourceVersion, HandleEvent, CloseResource, Compact.", "quantifier": "every projection handler program, schedule and state", "why_tests_cant": "All programs and interleavings with compaction.", "anchors": ["engine/internal/projection/controller.go: Controller.Handle, Controller.Tick; engine/internal/projection/scope.go"]}
{"id": "C27", "title": "Observers are notified from the caller's goroutine only", "statement": "While a projection handles an event, the goroutine that compacts it notifies observers of nothing but what Compact() logs, and only if compaction during handling is enabled; every other fact, and every fact if Compact() does not log, is notified from the goroutine that called the engine. The unconditional promise of the code comment (all observers are notified from the caller's goroutine) is false.", "quantifier": "every projection handler program and goroutine schedule", "why_tests_cant": "A data race is a property of schedules.", "anchors": ["engine/internal/projection/controller.go: Controller.Handle, Controller.Tick; engine/internal/projection/scope.go", "fact/observer.go: Observer"]}
{"id": "C28", "title": "Compaction-while-handling is bracketed", "statement": "With compaction during handling enabled, for every goroutine schedule in which nobody panics, the facts of handling an event are ProjectionCompactionBegun, an interleaving of the log messages of the two goroutines, ProjectionCompactionCompleted with the compaction's error.", "quantifier": "every handler program and every schedule", "why_tests_cant": "Quantifies over schedules.", "anchors": ["engine/internal/projection/controller.go: Controller.Handle, Controller.Tick; engine/internal/projection/scope.go"]}
{"id": "C29", "title": "Reset returns the engine to its initial state", "statement": "After Engine.Reset the message IDs and the state of all aggregates, processes and integrations are those of a newly constructed engine, so that an application without projections behaves as on a new engine whatever operations follow. The unconditional claim is false: the time of the last compaction of a projection survives Reset, so a reset engine can omit a compaction that a new one performs.", "quantifier": "every application configuration, every (arbitrary, possibly panicking, recovering and stateful) handler program, and every finite sequence of Dispatch/Tick/Reset calls with arbitrary options, clocks and cancellation points", "why_tests_cant": "All prior histories.", "anchors": ["engine/engine.go: Engine.Reset", "engine/internal/projection/controller.go: Controller.Handle, Controller.Tick; engine/internal/projection/scope.go"]}
{"id": "C30", "title": "Every routed event reaches each enabled projection", "statement": "If ResourceVersion() of a projection knows only resources that were passed to HandleEvent(), and what it knows is forgotten whenever Reset is called, then the events passed to HandleEvent() since the last Reset are exactly the events for which the projection was engaged, each once and in that order, whatever the other handlers, the schedule of the compaction, errors, panics and cancellation. It is false for a projection whose state outlives Reset (refuted by a witness): message IDs restart and are used as the names of resources, so the new event is taken for one that was handled already.", "quantifier": "every history with a persistent projection store", "why_tests_cant": "Needs a history across Reset.", "anchors": ["engine/internal/projection/controller.go: Controller.Handle, Controller.Tick; engine/internal/projection/scope.go", "envelope/id.go: MessageIDGenerator.Next, Reset"]}
{"id": "C31", "title": "Messages are processed in FIFO order", "statement": "Within Dispatch or Tick, the messages dispatched are exactly the initial message(s) followed by the messages returned by handlers (recorded events; for a process the executed commands and then the timeouts that are already due), handling by handling, each exactly once, unless the context is cancelled or a panic occurs, in which case a prefix of that sequence is dispatched.", "quantifier": "every application, state and cascade", "why_tests_cant": "Unbounded cascades.", "anchors": ["engine/engine.go: Engine.Dispatch, Engine.Tick, Engine.dispatch, Engine.handle"]}
{"id": "C32", "title": "Each message is offered to exactly the handlers that consume it", "statement": "For each dispatched command or event, each handler that declares its type as consumed is engaged or skipped exactly once, and no other handler is; HandlingBegun is emitted iff the handler is not skipped.", "quantifier": "every application, options and cascade", "why_tests_cant": "All routing tables.", "anchors": ["engine/configurer.go: registerController", "engine/engine.go: Engine.Dispatch, Engine.Tick, Engine.dispatch, Engine.handle"]}
{"id": "C33", "title": "Handler enablement precedence", "statement": "Whether a handler is skipped is decided by: the per-handler operation option if present (last one wins); otherwise skipped if disabled by its own configuration; otherwise by the handler-type option (last one wins, all types on by default). The skip reason reported is the deciding rule.", "quantifier": "every sequence of operation options and every handler", "why_tests_cant": "All option sequences.", "anchors": ["engine/engine.go: Engine.skipHandler", "engine/operationoption.go: newOperationOptions"]}
{"id": "C34", "title": "Handler errors are isolated and aggregated", "statement": "An error from one handler prevents neither the other handlers of that message nor the following messages from being processed; without cancellation the error returned by Dispatch/Tick is nil iff no handler returned an error, and contains every handler error, tagged with the handler's name and type, in order.", "quantifier": "every application and cascade, every subset of failing handlers", "why_tests_cant": "All failure subsets.", "anchors": ["engine/engine.go: Engine.Dispatch, Engine.Tick, Engine.dispatch, Engine.handle"]}
{"id": "C35", "title": "Cancellation stops processing at a message boundary", "statement": "If the context is cancelled, the message being dispatched is still offered to all its handlers, no further message is dispatched, and the context error is returned in place of the errors of the handlings (after the errors of the ticks, if they were completed). Otherwise the operation does the same as with a context that is never cancelled.", "quantifier": "every cancellation point", "why_tests_cant": "Cancellation points are universally quantified.", "anchors": ["engine/engine.go: Engine.Dispatch, Engine.Tick, Engine.dispatch, Engine.handle"]}
{"id": "C36", "title": "Facts are properly bracketed", "statement": "For every operation that does not panic, the facts emitted form a well-nested sequence: cycle begun ... cycle completed; within it for each message DispatchBegun, for each consuming handler either HandlingSkipped or HandlingBegun (controller facts) HandlingCompleted, DispatchCompleted; ticks likewise. If the operation panics the facts are a prefix of such a sequence.", "quantifier": "every operation in every state", "why_tests_cant": "All traces.", "anchors": ["engine/engine.go: Engine.Dispatch, Engine.Tick, Engine.dispatch, Engine.handle", "fact/dispatch.go", "fact/tick.go"]}
{"id": "C37", "title": "Dispatch terminates on acyclic applications", "statement": "If the declared message-type graph (consumed type to produced type, per handler) is acyclic, Dispatch and Tick process finitely many messages; there are cyclic applications on which Dispatch never returns.", "quantifier": "every acyclic application, state, handler programs", "why_tests_cant": "Termination cannot be tested.", "anchors": ["engine/engine.go: Engine.Dispatch, Engine.Tick, Engine.dispatch, Engine.handle", "engine/internal/aggregate/controller.go: Controller.Handle; engine/internal/aggregate/scope.go", "engine/internal/process/controller.go: Controller.Handle, Controller.Tick, update, delete; engine/internal/process/scope.go", "engine/internal/integration/controller.go: Controller.Handle; engine/internal/integration/scope.go"]}
{"id": "C38", "title": "Rejected dispatches have no effect", "statement": "Dispatching a timeout, an invalid message, or a message no handler consumes panics before any fact is emitted and changes nothing except that one message ID is consumed.", "quantifier": "every engine state and rejected message", "why_tests_cant": "All states.", "anchors": ["engine/engine.go: Engine.Dispatch"]}
{"id": "C39", "title": "All observers see the same facts", "statement": "Every observer registered for an operation is notified of every fact of that operation, exactly once, in the same order; observers registered earlier see each fact first. Which observers there are changes nothing else: histories of an engine that differ only in them have the same facts, results and states.", "quantifier": "every observer list and operation", "why_tests_cant": "All observer lists and traces.", "anchors": ["fact/observer.go: ObserverGroup.Notify", "engine/operationoption.go: WithObserver"]}
{"id": "C40", "title": "Operations on one engine are serialised", "statement": "When any number of goroutines call Dispatch, Tick and Reset concurrently, at most one of them is accessing controllers at any time and the controller accesses of each operation are contiguous; the state of the controllers is the one that results from making the calls one after the other in the order in which they acquired the lock, apart from the message IDs they are given.", "quantifier": "every number of goroutines and every schedule", "why_tests_cant": "Schedules are unbounded.", "anchors": ["engine/engine.go: Engine.Dispatch, Tick, Reset (field m)"]}
{"id": "C41", "title": "Message IDs are unique under concurrency", "statement": "Message IDs allocated concurrently are distinct for every schedule, as long as the engine is not reset (and fewer than 2^64 are allocated). This does not extend to a concurrent Reset (refuted by a concrete schedule): Dispatch allocates its ID before it waits for the lock, so that a message with an ID from before the Reset can be handled after it, and another message with the same ID too.", "quantifier": "every schedule", "why_tests_cant": "Schedules are unbounded.", "anchors": ["envelope/id.go: MessageIDGenerator.Next, Reset", "engine/engine.go: Engine.Dispatch, Engine.Reset"]}
{"id": "C42", "title": "Reset clears aggregate, process and timeout state and runs the reset hooks", "statement": "After Reset no aggregate or process instance exists, no timeout is pending, the next ID is 1 and every hook registered by WithResetter has been called exactly once in registration order.", "quantifier": "every engine state", "why_tests_cant": "All states.", "anchors": ["engine/engine.go: Engine.Reset", "engine/engineoption.go: WithResetter"]}
{"id": "C43", "title": "The due set of a Tick does not depend on map order", "statement": "The multiset of timeouts a Tick starts with is independent of the (random) order in which Go iterates over the handlers.", "quantifier": "every engine state and every pair of iteration orders", "why_tests_cant": "Map iteration order is random at run time.", "anchors": ["engine/engine.go: Engine.tick", "engine/internal/process/controller.go: Controller.Handle, Controller.Tick, update, delete; engine/internal/process/scope.go"]}
{"id": "C44", "title": "UnexpectedMessage panics are always enriched", "statement": "The panic that leaves Dispatch() or Tick() is always accounted for: it rejects the call before any fact is notified, or it comes from the handling (or compaction) that was begun last. If a handler method that is given a message panics with dogma.UnexpectedMessage, the panic that leaves the engine is panicx.UnexpectedMessage naming that handler, interface, method and message; every other panic value is passed through unchanged; the innermost call wins. A method that panics always makes the operation panic.", "quantifier": "every handler method and panic value", "why_tests_cant": "All panics at all call sites.", "anchors": ["engine/internal/panicx/unexpectedmessage.go: EnrichUnexpectedMessage"]}
{"id": "C45", "title": "ToExecuteCommand / ToRecordEvent semantics", "statement": "The expectation passes iff some message produced by a handler during the action (or, for Call(), also dispatched through the executor) has the same type as, and compares equal to, the expected message.", "quantifier": "every fact sequence, message and comparator", "why_tests_cant": "All fact sequences.", "anchors": ["expectation.message.go: messagePredicate.Notify", "expectation.messagecommon.go: tracker.Notify"]}
{"id": "C46", "title": "ToExecuteCommandType / ToRecordEventType semantics", "statement": "The expectation passes iff some message of exactly that type is produced (or, for Call(), dispatched).", "quantifier": "every fact sequence and type", "why_tests_cant": "All fact sequences.", "anchors": ["expectation.messagetype.go: messageTypePredicate.Notify"]}
{"id": "C47", "title": "Matching expectation semantics", "statement": "ToExecuteCommandMatching / ToRecordEventMatching pass iff the predicate returns nil for some produced message of that kind assignable to its parameter type; ignored and non-assignable messages never make it pass or fail.", "quantifier": "every fact sequence and predicate function", "why_tests_cant": "All fact sequences and predicates.", "anchors": ["expectation.messagematch.go: messageMatchPredicate"]}
{"id": "C48", "title": "Exhaustive matching semantics", "statement": "ToOnlyExecuteCommandsMatching / ToOnlyRecordEventsMatching pass iff every produced message of that kind is assignable to the parameter type and its predicate result is nil or IgnoreMessage (in particular when there is none).", "quantifier": "every fact sequence and predicate function", "why_tests_cant": "All fact sequences and predicates.", "anchors": ["expectation.messagematch.go: messageMatchPredicate"]}
{"id": "C49", "title": "Composite expectations are Boolean connectives", "statement": "AllOf, AnyOf, NoneOf, Not and ToRepeatedly pass iff all / at least one / none / not / all of their children would pass on the same facts; consequently Not(e) and NoneOf(e) agree, and ToRepeatedly(n,f) agrees with AllOf(f(0),...,f(n-1)).", "quantifier": "every expectation tree of any depth and width and every fact sequence", "why_tests_cant": "Unbounded trees.", "anchors": ["expectation.composite.go", "expectation.not.go", "expectation.repeat.go"]}
{"id": "C50", "title": "Impossible expectations are rejected before the action runs", "statement": "An expectation tree is rejected iff some leaf names a message type the application does not use, or (unless the action is Call) one that no handler produces; then the action is not performed and the test is failed with an error that names the type of the first such leaf, why it is impossible, and the iterations of ToRepeatedly() it is in.", "quantifier": "every expectation tree and application", "why_tests_cant": "Unbounded trees.", "anchors": ["expectation.messagecommon.go: guardAgainstExpectationOnImpossibleType", "test.go: Test.Expect"]}
{"id": "C51", "title": "Verdicts are stable", "statement": "Once a message, type or matching expectation has been met, no further fact can unmeet it, and once an exhaustive matching expectation has failed, no further fact can make it pass; this extends to every tree of AllOf, AnyOf, NoneOf, Not and ToRepeatedly built accordingly.", "quantifier": "every fact sequence and continuation", "why_tests_cant": "All continuations.", "anchors": ["expectation.message.go", "expectation.messagetype.go", "expectation.messagematch.go"]}
{"id": "C52", "title": "ToSatisfy semantics", "statement": "The expectation passes iff a skipping method was called, or no failing method was called, by the function or by its cleanup functions. Statements after FailNow, Fatal, Fatalf or a skipping method are not executed, unless the caller recovers the panic. Failed() and Skipped() reflect the calls made so far; the explanation names the first failing or skipping call; the log holds what was logged, in order. Any other panic propagates if no cleanup function panics or aborts; it does not always propagate otherwise: a cleanup function that calls FailNow hides it.", "quantifier": "every user function (sequence of SatisfyT calls)", "why_tests_cant": "All call sequences.", "anchors": ["expectation.satisfy.go: satisfyPredicate, SatisfyT"]}
{"id": "C53", "title": "Cleanup functions run last-in first-out", "statement": "The functions registered with SatisfyT.Cleanup by the function are run once each after it ended, however it ended, last registered first, up to the first that panics or aborts. It is not true that all are run: those registered before one that calls FailNow or panics are skipped, and those registered by a cleanup function are never run.", "quantifier": "every sequence of registrations and aborts", "why_tests_cant": "All call sequences.", "anchors": ["expectation.satisfy.go: SatisfyT.close, Cleanup"]}
{"id": "C54", "title": "The virtual clock never goes backwards", "statement": "Over any sequence of built-in actions the test's virtual clock is non-decreasing; an adjustment that would reverse it fails without performing a tick or changing anything.", "quantifier": "every action sequence and every TimeAdjustment implementation", "why_tests_cant": "Unbounded action sequences.", "anchors": ["action.advancetime.go: advanceTimeAction.Do", "test.go: Test.doAction"]}
{"id": "C55", "title": "Actions run at the virtual time", "statement": "Every engine operation performed by an action uses the virtual clock at the start of the innermost action in progress as engine time, unless the user overrides it with an unsafe option; AdvanceTime sets the clock to the adjusted time and then performs one tick at that time, which unsafe options cannot affect.", "quantifier": "every action sequence and option list", "why_tests_cant": "All option lists.", "anchors": ["test.go: Test.doAction", "action.advancetime.go: advanceTimeAction.Do"]}
{"id": "C56", "title": "Test handler enablement", "statement": "A new Test disables integrations and projections and nothing else; EnableHandlers and DisableHandlers affect exactly the named handlers, up to the first unknown one, which makes them panic; EnableHandlersLike and DisableHandlersLike affect exactly the matching handlers that are not disabled in their own configuration, or panic without any effect if a pattern is bad or matches none; the last call wins, what is in force at the beginning of an action applies to all of it, and a handler disabled in its own configuration cannot be enabled through them and is never engaged (without unsafe options).", "quantifier": "every sequence of enable/disable calls", "why_tests_cant": "All call sequences.", "anchors": ["test.go: Begin, enableHandlers, enableHandlersLike"]}
{"id": "C57", "title": "The command executor is usable only during Call", "statement": "ExecuteCommand on the test's executor panics unless a Call action is running, and after a Call action finishes, normally or by panic, the executor is unbound again and the interceptor in force before the Call is restored.", "quantifier": "every sequence of actions and every user function", "why_tests_cant": "All user functions, including panicking ones.", "anchors": ["executor.go: CommandExecutor", "action.call.go: callAction.Do"]}
{"id": "C58", "title": "The command executor stays usable throughout Call", "statement": "Throughout a function passed to Call that performs no Call action itself, ExecuteCommand never panics for being outside a test; in any function it does so only after another Call action performed by the function. It is not true that it is usable throughout every function (refuted by a concrete test): a Call performed by the function, on the same test, leaves the outer Call's executor unbound.", "quantifier": "every user function including re-entrant ones", "why_tests_cant": "Refuted by a witness.", "anchors": ["action.call.go: callAction.Do", "executor.go: Bind, Unbind"]}
{"id": "C59", "title": "Expect fails the test exactly when it should", "statement": "Expect marks the test failed iff the expectation is impossible, the action returned an error, or the expectation was not met by the facts of the action; the action is performed at most once and the predicate is finalised exactly once when it was created.", "quantifier": "every test state, action and expectation", "why_tests_cant": "All combinations.", "anchors": ["test.go: Test.Expect"]}
{"id": "C60", "title": "Reports agree with verdicts", "statement": "The Ok mark of a report and of every sub-report equals the verdict of the corresponding expectation, and explanations, suggestions and diffs are produced only for failed message expectations that are neither under negation nor part of a passing tree.", "quantifier": "every expectation tree and fact sequence", "why_tests_cant": "Unbounded trees.", "anchors": ["expectation.composite.go: Report", "expectation.not.go: Report", "expectation.message.go: Report", "report.go"]}
{"id": "C61", "title": "Repeat reports show the first failure", "statement": "A failed ToRepeatedly report contains exactly one sub-report, that of the failed iteration with the smallest index, and states the exact number of failed iterations.", "quantifier": "every number of iterations and failure pattern", "why_tests_cant": "All patterns.", "anchors": ["expectation.repeat.go: repeatPredicate.Report"]}
{"id": "C62", "title": "Diagnostic counters are exact", "statement": "What the report of a failed expectation says about the action is true: whether the relevant handler types were enabled, whether relevant handlers were engaged, whether any messages (of the expected kind) were produced; its suggestions list the disabled relevant handler types and the engaged handlers that can produce the expected kind, once each and in order of first engagement.", "quantifier": "every fact sequence", "why_tests_cant": "All fact sequences.", "anchors": ["expectation.messagecommon.go: tracker"]}
{"id": "C63", "title": "Diagnostics know about tick cycles", "statement": "If the handler types that could produce the expected message were all disabled for the last dispatch cycle, the report of the failed expectation says so. This does not hold for tick cycles (refuted by a concrete run): after AdvanceTime with all handler types disabled the report says only that no messages were produced at all, although the diagnostics are documented to know whether a dispatch or tick cycle was started.", "quantifier": "every fact sequence", "why_tests_cant": "All fact sequences.", "anchors": ["expectation.messagecommon.go: tracker.Notify"]}
{"id": "C64", "title": "Failed matches are grouped exactly", "statement": "The failed-matches list of a matching expectation has one entry per distinct (type, error text) in order of first occurrence, with the exact number of occurrences, and counts add up to the number of failures.", "quantifier": "every fact sequence", "why_tests_cant": "All fact sequences.", "anchors": ["expectation.messagematch.go: messageProduced"]}
{"id": "C65", "title": "Log lines are deterministic", "statement": "The list of enabled handlers in a log line does not depend on Go's map iteration order.", "quantifier": "every set of handlers and every pair of iteration orders", "why_tests_cant": "Map iteration order is random.", "anchors": ["fact/logger.go: formatEnabledHandlers"]}
{"id": "C66", "title": "Log line layout", "statement": "Every fact produces at most one log line. It consists of the labelled message, causation and correlation IDs of the message the fact is about, one-cell symbols for direction, type of handler and failure, and the non-empty texts joined by the separator: the handler (and instance), then the details. A failure is shown with the error's text, a produced message with its type and description, and text logged by a handler as it was written.", "quantifier": "every fact and text list", "why_tests_cant": "All texts.", "anchors": ["fact/internal/logging/write.go: mustWrite", "fact/logger.go: Logger.Notify"]}
{"id": "C67", "title": "Inflection does not depend on map order", "statement": "inflect.Sprint gives the same result for every order in which Go iterates over its substitution and correction maps.", "quantifier": "every input string, kind and iteration order", "why_tests_cant": "Map iteration order is random and inputs unbounded.", "anchors": ["internal/inflect/inflect.go: Sprint"]}
{"id": "C68", "title": "Inflection is complete", "statement": "inflect.Sprint replaces every placeholder by the word for the kind of message and then every wrong article or plural by the right one, in lower and upper case. Afterwards no placeholder of the kind remains in the text, text without placeholders and ungrammatical phrases is unchanged, and the function is idempotent.", "quantifier": "every input string and kind", "why_tests_cant": "Unbounded inputs.", "anchors": ["internal/inflect/inflect.go: Sprint"]}
{"id": "C69", "title": "Location rendering", "statement": "Location.String includes file and line iff a file is known, and the function name iff it is known and either no file is known or it is not a closure.", "quantifier": "every location value", "why_tests_cant": "All strings.", "anchors": ["location/location.go: Location.String, isNamedFunc"]}
{"id": "C70", "title": "Run ticks at scaled time until error or cancellation", "statement": "RunTimeScaled ticks the engine at epoch plus scaled elapsed time, never ticks again after a tick fails or the context is cancelled, returns that error, and user-supplied options take precedence over the scaled time.", "quantifier": "every sequence of clock readings and tick outcomes", "why_tests_cant": "Unbounded loops.", "anchors": ["engine/run.go: RunTimeScaled"]}
{"id": "C71", "title": "fact.Buffer is a consistent log", "statement": "Under any interleaving of Notify and Facts calls, each call takes effect at one moment between its beginning and its end; hence every Facts() result is a prefix of one sequence of notified facts, which has lost and duplicated none of them when all calls have ended, successive results grow monotonically and contain every fact whose notification had ended; writing into returned slices does not affect the buffer.", "quantifier": "every number of goroutines and schedule", "why_tests_cant": "Schedules are unbounded.", "anchors": ["fact/observer.go: Buffer"]}
{"id": "C72", "title": "Report text layout", "statement": "WriteTo renders each report as a mark line, then non-empty sections indented under it, then sub-reports each line of which is indented by four more spaces, in order; empty sections are omitted.", "quantifier": "every report tree", "why_tests_cant": "Unbounded trees and texts.", "anchors": ["report.go: Report.WriteTo"]}
{"id": "C73", "title": "The location of a panic is found", "statement": "location.OfPanic, called while a panic is being recovered, reports the function that called panic: the first function outside of the runtime below the most recent runtime.gopanic. This holds if that function is among the first eight program counters of the stack; beyond that depth it does not (refuted by a concrete stack), although the code is written to read the whole stack. location.OfCall reports where its caller was called.", "quantifier": "every call stack, with any inlining", "why_tests_cant": "Stacks are unbounded.", "anchors": ["location/location.go: OfPanic, OfCall, eachFrame"]}
{"id": "C74", "title": "Internal panics are unreachable", "statement": "Whatever the application does, the engine panics only with values its users raise or with the panics documented for them: the branches of the code that panic because of an impossible handler, route or message kind are never reached in any history.", "quantifier": "every configuration, user behaviour and history", "why_tests_cant": "Unreachability quantifies over all histories.", "anchors": ["engine/engine.go", "engine/internal/aggregate/controller.go", "engine/internal/process/controller.go", "engine/internal/integration/controller.go", "engine/internal/projection/controller.go"]}
{"id": "C75", "title": "Prepare fails the test exactly when an action fails", "statement": "Prepare marks the test as failed iff its action returns an error, and reports that error; a panic of the action propagates and does not mark the test as failed; the action is performed exactly once, without a predicate observing it.", "quantifier": "every action and test state", "why_tests_cant": "All actions.", "anchors": ["test.go: Test.Prepare"]}
{"id": "C76", "title": "A test is a history of the engine", "statement": "Whatever a test does, through actions, nested Call functions, executors and interceptors, what happens to its engine is one sequence of Dispatch and Tick calls with the facts observed, so that every property of engine histories holds of tests.", "quantifier": "every test program, however nested", "why_tests_cant": "Programs are unbounded.", "anchors": ["test.go", "action.call.go", "action.dispatch.go", "action.advancetime.go", "engine/executor.go"]}
{"id": "C77", "title": "Concurrent calls of an engine end", "statement": "However many goroutines call Dispatch, Tick and Reset of one engine, with handlers that do not call the engine themselves, there is no deadlock (as long as some call has not ended, some goroutine can make a step) and no schedule in which calls of terminating handlers go on for ever.", "quantifier": "every number of goroutines and every schedule", "why_tests_cant": "Schedules are unbounded.", "anchors": ["engine/engine.go: Engine.Dispatch, Tick, Reset (field m)"]}
{"id": "C78", "title": "No message is dispatched twice", "statement": "Since the last Reset, no two dispatches, whether by Dispatch or by Tick, are of messages with the same ID (as long as the 64-bit counter of IDs does not wrap around); hence no handler is engaged twice by the same message, and each is engaged only by messages of the types it consumes and, if it is a process, by timeouts it scheduled.", "quantifier": "every application configuration, every (arbitrary, possibly panicking, recovering and stateful) handler program, and every finite sequence of Dispatch/Tick/Reset calls with arbitrary options, clocks and cancellation points", "why_tests_cant": "All histories, including failed and cancelled operations.", "anchors": ["engine/engine.go: Engine.Dispatch, Engine.Tick, Engine.dispatch, Engine.handle", "engine/internal/process/controller.go: Controller.Handle, Controller.Tick, update, delete; engine/internal/process/scope.go", "envelope/id.go: MessageIDGenerator.Next, Reset"]}
{"id": "C79", "title": "Timeouts in tests", "statement": "In a test, a process never handles a timeout before the virtual clock reaches the time for which it is scheduled (unless an unsafe option sets the engine time). An AdvanceTime whose tick is not cut short dispatches every timeout that is pending and due at the new time, for every process that is enabled; afterwards every timeout of such a process that is still pending, including those scheduled by the messages dispatched during the tick, is for a later time.", "quantifier": "every test program, application and schedule of timeouts", "why_tests_cant": "Unbounded histories of timeouts.", "anchors": ["action.advancetime.go: advanceTimeAction.Do", "test.go: Test.doAction", "engine/internal/process/controller.go: Controller.Tick"]}
{"id": "C80", "title": "Failed ToSatisfy expectations are located at the innermost non-helper call", "statement": "When a function given to ToSatisfy (or a function it calls) is the first to call a failing or skipping method, the explanation in the report names that method and the file and line of the innermost call in progress whose function has not called Helper, or of the call in the function given to ToSatisfy if all of them have; it says 'called at' if that is where the method was called and 'called indirectly by call at' otherwise. The same holds for cleanup functions unless all functions up to the cleanup function are helpers. Refuted: a cleanup function that calls Helper makes the explanation point into testkit itself, and more than 50 nested helpers make it point into a helper.", "quantifier": "all functions given to ToSatisfy, with any nesting of calls, helpers, panics, recoveries and cleanup functions, and all stacks above Done", "why_tests_cant": "The number of nested helpers and cleanup functions and the order of the calls are unbounded.", "anchors": ["expectation.satisfy.go (SatisfyT.explain, findFrame, Helper, callerName, stack)"]}
{"id": "C81", "title": "What an Expect() considers and what an action dispatches", "statement": "In every test, the expectation of an Expect() considers the messages produced by handlers, and those dispatched by the action itself exactly if the action is Call(); messages are compared with the comparator given last to Begin(), whatever happened in between; a message type counts as used or produced according to the handlers of the application. ExecuteCommand() and RecordEvent() of a message that no handler consumes or produces fail the test without dispatching anything; otherwise they perform one dispatch of that message, and fail the test exactly if it returns an error.", "quantifier": "all tests (all programs using a Test), all options, all applications, messages and actions", "why_tests_cant": "The history before the Expect() and the application are arbitrary.", "anchors": ["test.go (Test.Expect)", "action.call.go (callAction.ConfigurePredicate)", "action.dispatch.go (dispatchAction.Do)", "compare.go (WithMessageComparator)"]}
{"id": "C82", "title": "Concurrent use of the CommandExecutor of a test", "statement": "However goroutines interleave calls of ExecuteCommand, Bind, Unbind and Intercept on one CommandExecutor: while a call of ExecuteCommand is in progress no Bind, Unbind or Intercept takes effect, so that Unbind (the end of a Call action) waits for the commands being executed; a call of ExecuteCommand panics if the executor was not bound when it was called, otherwise it calls the interceptor installed at that time with the engine bound at that time, or has that engine handle the command. If interceptors do not use the executor they intercept and handlers use neither executors nor engines, there is no deadlock and every schedule ends; each of these conditions is necessary.", "quantifier": "all goroutine programs, interceptors, handlers, engines and schedules, including contexts that end while a call waits for the engine", "why_tests_cant": "the interleavings are chosen by the Go scheduler and the lock; tests see a few of them", "anchors": ["executor.go: CommandExecutor.ExecuteCommand, Bind, Unbind, Intercept", "engine/executor.go: CommandExecutor.ExecuteCommand", "action.call.go: callAction.Do"]}
{"id": "C83", "title": "The diff of a report tells both messages", "statement": "The text of the Message Diff section determines the rendering of the expected message and of the most similar message, provided that neither rendering contains one of the markers {+, +}, [- and -] (with markers it does not); a diff in which nothing is marked is of equal texts and is that text.", "quantifier": "all texts and all ways to split them into equal, inserted and deleted pieces", "why_tests_cant": "the texts and the pieces are arbitrary; ambiguity concerns pairs of inputs", "anchors": ["internal/report/diff.go: WriteDiff", "expectation.message.go: messagePredicate.buildDiff"]}
{"id": "C84", "title": "A SatisfyT used by several goroutines", "statement": "The *SatisfyT passed to a ToSatisfy() function may be used by several goroutines. Each goroutine makes exactly the calls its code says; Failed() and Skipped() answer according to all calls made so far by whichever goroutine; cleanup functions registered by any goroutine before the function ended are run, the last one first; if the other goroutines have ended when the function and its cleanup functions have, the verdict and the report (outcome, first failing or skipping call, log) are those of all calls made; a goroutine that calls FailNow(), Fatal() or a skipping method does nothing more until its panic is recovered or ends the process; no method blocks for good unless formatting an argument uses the *SatisfyT itself (then it does), and every schedule ends. Used by one goroutine it behaves as the sequential properties say. Goroutines left behind can change the verdict between the answer and the report, and cleanup functions they register late are never run; FailNow() in another goroutine ends the process.", "quantifier": "all functions, all goroutines they start, all arguments of methods and all schedules", "why_tests_cant": "data races and deadlocks depend on the schedule, which tests do not control", "anchors": ["expectation.satisfy.go: SatisfyT, satisfyPredicate.Done, satisfyPredicate.Ok, satisfyPredicate.Report"]}
{"id": "C85", "title": "User-defined expectations are used as documented", "statement": "Whatever the user's implementations of Expectation and Predicate do, inside any tree of AllOf(), AnyOf(), NoneOf(), Not() and ToRepeatedly(): a call of Expect() creates the predicates, notifies each of them of the facts of the action, in order, calls Done() on each of them exactly once after the last Notify() (however the action ends), and only then Ok() and Report(), Report() at most once. The test fails exactly if the Boolean combination of the predicates' answers is negative. Exceptions, each shown by a counterexample: predicates created before the Predicate() of a sibling fails are abandoned without Done(); a Done() that panics prevents the Done() of later siblings; a Notify() that panics (in an action that recovers) hides that fact from later siblings.", "quantifier": "every expectation tree over every implementation of the interfaces (with arbitrary state, errors, panics), every action and every sequence of facts", "why_tests_cant": "The order of calls must hold for every implementation and every way an action can end; the unit tests use a handful of static expectations.", "anchors": ["expectation.go: Expectation, Predicate", "expectation.composite.go: compositeExpectation.Predicate, compositePredicate", "expectation.not.go: notExpectation, notPredicate", "expectation.repeat.go: repeatExpectation.Predicate, repeatPredicate", "test.go: Test.Expect"]}
{"id": "C86", "title": "A panicking observer does not corrupt the engine", "statement": "However observers given to Dispatch and Tick panic, and whether or not handlers recover panics that come out of their scopes: aggregate histories, process instances and pending timeouts stay exactly those told of by the facts notified (facts that announce something count only if all observers returned); a handling that panics leaves no events, timeouts or instances behind; message IDs stay unique; compactions stay an hour apart; the engine is never left locked, so later operations are performed; an observer misses a fact only because an earlier observer of the same operation panicked on it; if handlers let panics through, the operation panics with that panic and all observers have seen the same facts up to the last. What does not survive such a panic: the delivery of events already kept and of timeouts already taken out of a process.", "quantifier": "all applications, all handler programs (including those that recover panics of scope methods), all observers (functions of the fact and the user's world that may panic with any value), all sequences of operations on an engine, going on after panics", "why_tests_cant": "The panic can strike at any of the notifications of any operation and after any history; tests use observers that never panic.", "anchors": ["fact/observer.go: ObserverGroup.Notify", "engine/engine.go: Engine.Dispatch, Engine.Tick, Engine.Reset", "engine/internal/aggregate/scope.go: scope", "engine/internal/process/scope.go: scope", "engine/internal/process/controller.go: Controller.Handle, Controller.Tick"]}
{"id": "C87", "title": "User-defined actions get fresh, correct scopes and are judged correctly", "statement": "A test may use actions that the user implements, with everything an ActionScope offers: the engine, the operation options, the virtual clock and the executor. Whatever such actions do, nested in each other in any way: each action is given the current virtual time, the options of the test and all handlers enabled and disabled so far; predicate options changed by one action are not seen by the next; commands are executed exactly while the executor is bound and with the options it was last bound with; everything done to the engine is one history of the engine, so all its properties hold; Expect() passes exactly if the expectation is met by the facts of operations given the predicate's observer, and logs, reports and fails accordingly; Prepare() fails exactly for errors. The built-in actions do what code with an ActionScope could do. The virtual clock may be set back and the executor may stay bound, because nothing prevents user-defined actions from it.", "quantifier": "all applications, environments and options of Begin(), all programs built from user-defined actions and test code that use the ActionScope in any order and depth, with panics, Goexit and deferred functions", "why_tests_cant": "Actions are an interface for users: tests exercise the three built-in ones only; interference between actions shows in sequences and nestings of any length.", "anchors": ["action.go: Action, ActionScope", "test.go: Test.Prepare, Test.Expect, Test.doAction", "executor.go: CommandExecutor.Bind, Unbind, Intercept, ExecuteCommand", "expectation.go: PredicateOptions"]}
{"id": "C88", "title": "Functions that build actions and expectations reject wrong arguments and otherwise mean what they say", "statement": "An expression that builds an expectation from others panics exactly if the arguments of one of its calls are wrong (nil or invalid messages, nil functions, no children, empty descriptions, repetitions below one, nil where a caption is needed); the panic is about the first such call and has the form \"Function(...): reason\". Otherwise the expectation holds of facts exactly if the expression, read as English, does; AllOf(e), AnyOf(e) and e are the same, as are Not(e) and NoneOf(e) including their captions. Likewise for ExecuteCommand, RecordEvent, AdvanceTime with ToTime and ByDuration, and Call with InterceptCommandExecutor. Two exceptions are proved: the panic of ExecuteCommand for an invalid command names another function, and nil children of AllOf and AnyOf are not rejected when they are given.", "quantifier": "all expressions built from the functions of the package, of any size, all arguments including nil, all functions that render types, texts and times", "why_tests_cant": "Expressions nest without bound, and which call is reported depends on the order of evaluation; tests build each function alone with few arguments.", "anchors": ["action.dispatch.go: ExecuteCommand, RecordEvent", "action.advancetime.go: AdvanceTime, ByDuration, ToTime", "action.call.go: Call", "executor.go: InterceptCommandExecutor", "expectation.composite.go: AllOf, AnyOf, NoneOf", "expectation.not.go: Not", "expectation.message.go: ToExecuteCommand, ToRecordEvent", "expectation.messagetype.go", "expectation.messagematch.go", "expectation.repeat.go: ToRepeatedly", "expectation.satisfy.go: ToSatisfy"]}
{"id": "C89", "title": "Shared slices and roots do not interfere", "statement": "The engine passes around slices of envelopes whose arrays are shared (a process' Tick gives away the front of the array whose rest it keeps as pending timeouts; an aggregate's events are appended to its history; histories and queues are extended by append) and roots that are shared by reference. None of this can be observed: whatever capacities append() chooses and whatever is in memory, the facts, results and what the engine knows are those of an engine in which slices and roots are copied values. Slices kept between operations contain no nil. An aggregate root that was given to an observer is not changed by later operations; the root of a process instance is.", "quantifier": "every application, sequence of dispatches, ticks and resets, capacity policy of append(), and initial memory", "why_tests_cant": "aliasing bugs show up only for particular capacities, sequences of appends and interleavings of handlers, which differ between Go releases", "anchors": ["engine/internal/process/controller.go:Controller.Tick,Controller.update,Controller.delete", "engine/internal/aggregate/controller.go:Controller.Handle", "engine/internal/aggregate/scope.go:scope.RecordEvent", "engine/internal/process/scope.go:scope", "engine/internal/integration/scope.go:scope.RecordEvent", "engine/engine.go:Engine.Dispatch,Engine.Tick"]}
{"id": "C90", "title": "User code cannot interfere with the options of a test", "statement": "Each action is given, in this order, the time of the virtual clock, the options every test starts with, those of WithUnsafeOperationOptions(), those of EnableHandlers() and its siblings so far, and the observer of Expect(). This is so whatever user-defined actions and other user code did with the slices of options they were given earlier: appending to them, changing elements, keeping them for later. Dispatching actions call the engine with exactly these options, AdvanceTime() with these and the new time, and during Call() the executor uses exactly these. AdvanceTime() does not change the options in the scope it is performed with; but it may overwrite options that a user-defined action has appended to those of its scope before performing AdvanceTime() with that scope, and such an action does not see the new time in the options of its scope.", "quantifier": "every sequence of calls of a test, every user-defined action, function given to Call() and other user code that uses slices of options, every capacity policy of append()", "why_tests_cant": "interference through shared arrays depends on capacities, and on what user code does with slices it has kept", "anchors": ["test.go:Test.doAction,Test.EnableHandlers,BeginContext", "testoption.go:WithUnsafeOperationOptions", "action.advancetime.go:advanceTimeAction.Do", "action.call.go:callAction.Do", "action.dispatch.go:dispatchAction.Do", "executor.go:CommandExecutor.ExecuteCommand"]}
{"id": "C91", "title": "The log of a test tells what happened", "statement": "The heading of each Prepare() and Expect() is logged first and consists of the captions of the action and the expectation. Then come the lines of the fact logger, one for each fact that is not silent, in order and not twice, whatever options the user gives. After them an Expect() logs exactly one report, with a tick if the expectation is met and a cross if it is not, or one fatal error. The test has failed if and only if its log has a fatal error or a report with a cross. An expectation of the user can report something else than its verdict, and an action of the user can attach the fact logger a second time; nothing else can.", "quantifier": "all applications, environments, sequences of steps, actions and expectations including those of the user, and options", "why_tests_cant": "A test looks at the log of a few runs; that the log and the verdict agree must hold for every sequence of steps, every outcome of an action and every predicate.", "anchors": ["test.go: Test.Prepare, Test.Expect, logf", "fact/logger.go: Logger.Notify", "report.go: Report.WriteTo", "expectation.messagecommon.go: guardAgainstExpectationOnImpossibleType", "action.dispatch.go: dispatchAction", "action.advancetime.go: advanceTimeAction"]}
{"id": "C92", "title": "Names appear verbatim", "statement": "The names of message types and handlers and the locations of predicates appear unchanged in captions, reports and errors, with the words around them in the right form, although they are inserted before the text is inflected. This holds for every name without \"<\" and spaces, and in general for every name without placeholders and without ungrammatical phrases. The captions of ExecuteCommand() and RecordEvent() need in addition that the name does not end in the wrong article as a word: an event of type main.a is shown as main.an.", "quantifier": "all names and locations, kinds of messages, expectations and histories", "why_tests_cant": "Inflection replaces text everywhere, also across the boundary between a name and the words around it, so every name is a different case.", "anchors": ["internal/inflect/inflect.go: Sprint, Sprintf, Errorf", "expectation.message.go: messageExpectation.Caption, messagePredicate.Report", "expectation.messagetype.go: messageTypeExpectation.Caption", "expectation.messagematch.go: messageMatchExpectation.Caption", "expectation.messagecommon.go: guardAgainstExpectationOnImpossibleType", "action.dispatch.go: dispatchAction.Caption"]}
{"id": "C93", "title": "Panics name the handler, the method and the message", "statement": "When Dispatch() or Tick() panics and handlers panic only with values of their own, with dogma.UnexpectedMessage or with panics they recovered from their scope, the printed panic explains itself: either the call was rejected before any fact was notified and the text states the message type and why (invalid, or not consumed by any handler); or it names the handler whose handling was begun last, the type and method of it that was running, and either the type of the message that was not expected (the message being handled, or an event the handler declares, for ApplyEvent()) or what the handler did wrong (an empty instance ID, a nil root, a message type it does not declare, an invalid message with its validation error); or it is a value made by the user.", "quantifier": "all applications whose handlers do not invent panic values of the engine, all histories, operations and messages", "why_tests_cant": "Every handler, method, message and history is a different case.", "anchors": ["engine/internal/panicx/unexpectedbehavior.go: UnexpectedBehavior.String", "engine/internal/panicx/unexpectedmessage.go: UnexpectedMessage.String, EnrichUnexpectedMessage", "engine/engine.go: Dispatch", "engine/internal/aggregate/controller.go: Handle", "engine/internal/aggregate/scope.go: RecordEvent", "engine/internal/process/controller.go: Handle", "engine/internal/process/scope.go: ExecuteCommand, ScheduleTimeout", "engine/internal/integration/scope.go: RecordEvent"]}
{"id": "C94", "title": "The first line of a report counts the failures", "statement": "The first line of the report on AllOf(), AnyOf() or NoneOf() names the connective and, if the expectation is not met, states how many of the children failed (or passed unexpectedly), and nothing otherwise; that of ToSatisfy() carries its description and says whether the expectation was skipped or failed; that of ToRepeatedly() carries its description; that of Not() is \"do not\" and what the child expects; reports on message expectations carry no such remark.", "quantifier": "every expectation tree, scope and fact sequence", "why_tests_cant": "Unbounded numbers of children and all patterns of verdicts.", "anchors": ["expectation.composite.go: AllOf, AnyOf, NoneOf, compositePredicate.Report", "expectation.satisfy.go: satisfyPredicate.Report", "expectation.repeat.go: repeatPredicate.Report", "expectation.not.go: notPredicate.Report"]}
{"id": "C95", "title": "Facts are a transcript of what the handlers do", "statement": "The facts of a Dispatch() or Tick() that is not rejected tell exactly what the handlers did, in order. For each handling, the handler's method for the message is called with that message, the routed instance ID, the root that the facts name and the times of the message (RecordedAt, ScheduledFor, Now), in the state of the world that the previous handler left. Every call the method makes on its scope (RecordEvent, ExecuteCommand, ScheduleTimeout, Destroy, End, Log) is told by exactly its own facts, in the order of the calls, with the message, the due time, the text and the root at that moment; a call is refused, with a panic and no fact, exactly if the handler does not declare the message or the message is invalid. The error or panic of the handling is the one with which the method ended. Nothing else in the engine changes the world of the user.", "quantifier": "every application, every history of operations, every user-defined handler method (arbitrary interaction trees, which may recover from panics of their scope), every state of the world and of the roots, every interleaving of HandleEvent with Compact", "why_tests_cant": "Handler methods are arbitrary code, so transcripts form an unbounded family: any sequence of calls, refused calls that the method recovers from, mutations in between, ending and un-ending, and any interleaving with a concurrent compaction.", "anchors": ["engine/internal/aggregate/scope.go:scope", "engine/internal/aggregate/controller.go:Controller.Handle", "engine/internal/process/scope.go:scope", "engine/internal/process/controller.go:Controller.Handle", "engine/internal/integration/scope.go:scope", "engine/internal/projection/controller.go:Controller.Handle", "engine/engine.go:Engine.Dispatch, Engine.Tick"]}
{"id": "C96", "title": "Annotations appear in every later report, and change nothing else", "statement": "Every report of a test renders messages with all annotations made by Annotate() before the report, in the order in which they were made, including those made while the action was being performed. Each annotation's text is shown for exactly those values that have the very type of the annotated value and are equal to it (by proto.Equal for protocol buffers messages, by reflect.DeepEqual otherwise); a value in a variable of an interface type is annotated once, and a nil annotation annotates nothing. Removing all calls of Annotate() from a test changes nothing but the differences between messages shown in reports: the same handlers are called, the same facts observed, and the test passes, fails, panics or stops as before.", "quantifier": "every application, test (including calls of Annotate() by user actions, nested Expects and inside Call()), every list of annotations and every value rendered", "why_tests_cant": "A test annotates one or two values of one type in one message; the claim is about every value of every type in every report, and about the absence of side effects in every test.", "anchors": ["test.go: Test.Annotate, Test.Expect", "compare.go: equal", "report.go: Annotation"]}
{"id": "C97", "title": "Engines are built as their options say, and handler order only matters between consumers of one type", "statement": "engine.New() and MustNew() give an engine exactly one controller per handler of the application, found under the handler's name, and for each message type the handlers that consume it, each once; Reset() runs all hooks given to WithResetter(), in the order of the options; projections compact while handling events exactly if the last EnableProjectionCompactionDuringHandling() option says so (false if there is none). Nothing but WithResetter(nil) makes building an engine panic. The order in which an application's handlers are visited (that of a Go map) affects only the order in which the handlers of one type get a message: if no command or event type has two consumers, every history of operations on the engine has the same facts, results and states whatever the order.", "quantifier": "every application, list of engine options, order of the handlers, and history of operations", "why_tests_cant": "The order in which configkit visits handlers differs from run to run; a test sees one order and one list of options.", "anchors": ["engine/engine.go: New, MustNew", "engine/configurer.go: configurer", "engine/engineoption.go: WithResetter, EnableProjectionCompactionDuringHandling, newEngineOptions"]}
{"id": "C98", "title": "Writing a report to a failing writer", "statement": "Report.WriteTo() (and the function that writes a log line) passes its text to the writer piece by piece and in order, at every level of sub-reports. With any writer that keeps the contract of io.Writer, and whenever it fails: if no call of the writer fails, exactly the text of the report is written, its length is returned, and no error; if a call fails, the writer is not called again, what was written is a prefix of the text of the report, and the error of the writer is returned together with a count of zero (not with the number of bytes written, as io.WriterTo documents).", "quantifier": "every report (with any nesting of sub-reports and any sections) or log line, and every writer: any behaviour depending on all earlier calls, failing at any call and after any number of bytes", "why_tests_cant": "Tests use strings.Builder, which never fails; the property is about every point of failure.", "anchors": ["report.go: Report.WriteTo", "fact/internal/logging/write.go: Write, mustWrite", "fact/internal/logging/icon.go: Icon.WriteTo, IconWithLabel.WriteTo"]}
{"id": "C99", "title": "Reset hooks that panic", "statement": "Engine.Reset() forgets message IDs, aggregate histories, process instances and their timeouts before it calls the functions given to WithResetter(), so this happens even if one of them panics. The functions are called in the order they were given, up to the first that panics; the caller of Reset() gets that very panic, and the engine is unlocked and usable. Such panics have no other effect: if the functions are replaced by one that does the same to the user's world but never panics, every sequence of operations has the same facts, ends in the same state and has the same results, except that Reset() returns.", "quantifier": "every list of reset functions (arbitrary effects and panics), engine state, and sequence of operations with observers and handlers that may panic", "why_tests_cant": "A test tries one panicking hook at one point of one history.", "anchors": ["engine/engine.go: Engine.Reset", "engine/engineoption.go: WithResetter", "engine/controller.go: controller"]}
{"id": "C100", "title": "Roots that user code has kept", "statement": "Handlers and observers get pointers to roots, which user code may keep and change later, between operations of the engine. Changing aggregate roots has no effect at all: the facts, the results and what the engine knows are as if each root was a copied value. Changing the root of a process instance replaces the state of that instance, and has no other effect.", "quantifier": "every application, history of operations, capacity policy of append(), and every sequence of changes to roots made before, between and after operations", "why_tests_cant": "A test changes one root at one point of one history; whether anything else is reachable from it is a question about all of memory.", "anchors": ["engine/internal/aggregate/controller.go: Controller.Handle", "engine/internal/process/controller.go: Controller.Handle, Controller.update", "fact/aggregate.go: AggregateInstanceLoaded", "fact/process.go: ProcessInstanceLoaded"]}
{"id": "C101", "title": "Run() delivers every timeout, whatever other goroutines do", "statement": "Any other goroutines may dispatch messages, tick, reset the engine and so on between the ticks of a Run() or RunTimeScaled(). What they and the run do together is a history of the engine, so everything said of all histories holds. Each tick of the run that is not cut short by its context dispatches every timeout that is pending by then and due at the tick's time, whoever caused it to be scheduled, for each process that is enabled; afterwards every pending timeout of theirs is for later. So, if the run goes on without failing and its time grows without bound, no timeout waits for ever: each is taken for delivery, or discarded because its instance ended, or forgotten by a Reset().", "quantifier": "for all applications, histories before the run, epochs, scales, options, sequences of operations of other goroutines between the ticks (also infinite ones), timeouts and processes", "why_tests_cant": "Tests run for a fraction of a second with a handful of operations; that no timeout waits for ever is a statement about infinite runs and all interleavings.", "anchors": ["engine/run.go:Run, RunTimeScaled", "engine/engine.go:Tick, Dispatch, Reset", "engine/internal/process/controller.go:Tick"]}
{"id": "C102", "title": "A disabled handler might as well be absent", "statement": "However an engine has been used so far, if a handler is disabled (by configuration, by type or by name) during all the operations that follow, these operations go exactly as on an engine whose application lacks that handler and whose options do not name it: the same facts in the same order except those that say the handler was skipped, the same effects on the state of every other handler and on the outside world, the same returned errors and the same panics. The only exception is dispatching a message that nobody else consumes: it is accepted and skipped, whereas an application without the handler rejects it.", "quantifier": "every application, every handler of it, every history of the engine, every sequence of later operations (options, contexts, schedules, orders of map iteration) during which the handler is disabled", "why_tests_cant": "It compares two whole applications over every history: a leak (a skipped handler that consumes a message ID, queries the context, changes a queue order or is consulted for a timeout) would only show for particular mixes of handlers, options and cancellations.", "anchors": ["engine/engine.go: Engine.Dispatch, Engine.Tick, Engine.handle, skipHandler", "engine/operationoption.go: EnableHandler, newOperationOptions"]}
{"id": "C103", "title": "A test does not depend on the real time", "statement": "What time.Now() returns while a test runs changes nothing about it: the same actions, operations, facts, reports and failures in the same order, the same final state of the test, its engine and every handler, and the same ending, for whatever code the test and the functions it calls consist of. When a test begins matters only if no StartTimeAt() option says otherwise. Likewise one operation of an engine that is given WithCurrentTime() does not depend on the real time.", "quantifier": "every test (its whole code, including nested calls, interceptors and annotations), every application, every set of test options, every pair of sequences of clock readings, every schedule of the rest of the surroundings", "why_tests_cant": "It compares two runs of arbitrary test code under clocks that differ in every reading; one forgotten path that uses the default time of an operation (a nested executor, a tick after AdvanceTime, an interceptor that executes twice) would show only for that mix of calls, and only as flakiness.", "anchors": ["test.go: Begin, Test.options", "testoption.go: StartTimeAt", "engine/operationoption.go: newOperationOptions, WithCurrentTime", "action.advancetime.go: AdvanceTime", "executor.go: CommandExecutor", "engine/engine.go: Engine.Dispatch, Engine.Tick"]}
{"id": "C104", "title": "Expectations look but do not touch", "statement": "A test does the same as the test that has Prepare(a) in place of every Expect(a, e), also within functions given to Call(): the same actions and operations at the same times, the same facts, the same effects on handlers, clock and enablement, the same errors and the same ending, unless and until an expectation fails or is rejected. Then the test stops, and its facts are the first facts of the test without expectations. So two tests that differ only in expectations that are met do the same. (Of expectations whose ToSatisfy functions do not panic, with a TestingT whose Fatal and FailNow stop the test.)", "quantifier": "every test (its whole code, including nested calls, interceptors and code that recovers panics), every application and state of the test, every combination of expectations, every schedule", "why_tests_cant": "It compares the whole effects of arbitrary tests with and without arbitrary expectations; an observer that alters the options of later operations, a predicate that consumes an ID or a report that changes the test's state would show only for particular nestings of calls and expectations.", "anchors": ["test.go: Test.Expect, Test.Prepare, doAction", "action.call.go: callAction.Do", "expectation.go: Expectation, Predicate", "engine/operationoption.go: WithObserver"]}
{"id": "C105", "title": "Enabling handlers by pattern does not depend on map order", "statement": "EnableHandlersLike() and DisableHandlersLike() iterate over a Go map of the matching names. Whatever the order of iteration, each time, the test does the same afterwards: the same actions, operations, facts, reports, failures and ending, and the same set of enabled and disabled handlers; only the order among the options that have been added differs.", "quantifier": "every test (its whole code), every application, every pair of orders in which sets of names are iterated over, every list of patterns, every interleaving with EnableHandlers and DisableHandlers", "why_tests_cant": "Go randomises map iteration, so a dependence on it shows up as flakiness for particular combinations of overlapping patterns and later enablement; it has to be excluded for all orders at once.", "anchors": ["test.go: Test.EnableHandlersLike, Test.DisableHandlersLike, enableHandlersLike", "engine/operationoption.go: EnableHandler, newOperationOptions"]}
{"id": "C106", "title": "An interceptor that passes commands on changes nothing", "statement": "A test with an InterceptCommandExecutor() option whose function just calls the executor it is given with the command it is given and returns the result goes exactly as the test without the option: the same events, facts, reports and ending. The same is true of such an option of a Call() in a test that has no interceptor.", "quantifier": "every test (its whole code, including nested calls with interceptors of their own, errors and panics of commands), every application and all other options of the test", "why_tests_cant": "It compares whole runs of arbitrary test code; a wrapper that loses an error, swallows a panic, drops an option (and with it the virtual time or an observer) or is not removed in time would show only for particular nestings.", "anchors": ["executor.go: CommandExecutor.ExecuteCommand, InterceptCommandExecutor", "action.call.go: callAction.Do", "test.go: Begin"]}
{"id": "C107", "title": "What an operation does depends only on the instances it names", "statement": "Let an engine operation that does not panic notify of no fact about some instance of an aggregate or a process. If it is a Dispatch, then it does exactly the same (the same facts in the same order, the same errors, the same new message IDs, the same effects on the user's world) on an engine on which that instance has a different past: never created, created, destroyed, with other events, another root or other pending timeouts; and afterwards the two engines again differ in that instance only. Every operation, ticks included, does the same if only the events or the root of the instance differ.", "quantifier": "all applications, all pairs of engine states that differ in one instance of one handler only, all operations, contexts, orders of iteration and sorting, and all handler code", "why_tests_cant": "A relation between two runs from different states, over all states: a test compares particular histories and cannot show that no state of the other instance leaks into the handling of this one.", "anchors": ["engine/internal/aggregate/controller.go:Controller.Handle", "engine/internal/process/controller.go:Controller.Handle", "engine/internal/process/controller.go:Controller.Tick", "engine/engine.go:Engine.Dispatch", "engine/engine.go:Engine.Tick"]}
{"id": "C108", "title": "Ticking twice is ticking once", "statement": "A Tick at a time at which no pending timeout of an enabled process is due, and every enabled projection was compacted less than an hour ago, changes nothing: it dispatches nothing, consumes no message ID, runs no user code, and notifies only that each handler was ticked or skipped; and whatever is done afterwards is observed to go as it would have gone without that Tick. After any Tick that is neither cancelled nor ended by a panic the engine is in that situation for the time of the Tick, whatever the handlers did, so ticking again at the same time, or at an earlier one, has no effect, even with other operations in between that are not performed at a time before that of the first Tick. No operation ever makes anything due at or before its own time, even if it fails, panics or is cancelled: a timeout that is already due when it is scheduled is handled within the operation itself. In a test, an AdvanceTime that leaves the time where it was at the previous AdvanceTime dispatches nothing and reports no error, whatever was done in between.", "quantifier": "all applications, reachable engine states, operations, options, contexts, iteration orders and handler code", "why_tests_cant": "What is due after a Tick depends on everything the handlers of the whole cascade scheduled; tests try particular cascades.", "anchors": ["engine/engine.go:Engine.Tick", "engine/engine.go:Engine.Dispatch", "engine/internal/process/controller.go:Controller.Tick", "engine/internal/process/scope.go:scope.ScheduleTimeout", "engine/internal/projection/controller.go:Controller.Tick"]}
