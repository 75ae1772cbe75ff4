#!/usr/bin/env python3
"""Generates /verif/properties.jsonl (the source of truth for the property list)."""
import json, os
P = []
def p(id, title, statement, quantifier, why, anchors):
    P.append(dict(id=id, title=title, statement=statement, quantifier=quantifier,
                  why_tests_cant=why, anchors=anchors))

HIST = "every application configuration, every (arbitrary, possibly panicking, recovering and stateful) handler program, and every finite sequence of Dispatch/Tick/Reset calls with arbitrary options, clocks and cancellation points"
ENG = "engine/engine.go: Engine.Dispatch, Engine.Tick, Engine.dispatch, Engine.handle"
AGG = "engine/internal/aggregate/controller.go: Controller.Handle; engine/internal/aggregate/scope.go"
PRC = "engine/internal/process/controller.go: Controller.Handle, Controller.Tick, update, delete; engine/internal/process/scope.go"
INT = "engine/internal/integration/controller.go: Controller.Handle; engine/internal/integration/scope.go"
PRJ = "engine/internal/projection/controller.go: Controller.Handle, Controller.Tick; engine/internal/projection/scope.go"
ENV = "envelope/envelope.go: NewCommand, NewEvent, Envelope.NewCommand, Envelope.NewEvent, Envelope.NewTimeout"
IDG = "envelope/id.go: MessageIDGenerator.Next, Reset"

p("C01","Message IDs are unique","Between two calls to Engine.Reset, no two messages that enter or are produced inside the engine (dispatched commands and events, recorded events, executed commands, scheduled timeouts) carry the same Envelope.MessageID, as long as fewer than 2^64 IDs have been allocated.",HIST+", with other goroutines allocating IDs in between","The number of messages, the operation sequence and the interleaving of allocations are unbounded.",[IDG,ENG])
p("C02","Correlation IDs identify the root message","Every envelope that appears in any fact emitted during Engine.Dispatch(m) has the MessageID of the dispatched message as its CorrelationID.","every application, engine state, message, option set, queue length and cancellation point","A test samples one cascade; the claim is about cascades of every depth and fan-out.",[ENV,ENG])
p("C03","Causation IDs form a tree rooted at the dispatched message","A dispatched message is its own cause and correlation; every message produced by a handler has as CausationID the MessageID of the message that handler was handling and inherits its CorrelationID; hence following CausationID from any message produced in a history reaches a root after finitely many strictly older messages.",HIST,"Tests check one hop; the chain property is an induction over the whole history.",[ENV,ENG])
p("C04","Produced envelopes are stamped with engine time and origin","Every message produced by a handler carries CreatedAt equal to the engine time of the operation in progress, and an Origin naming the producing handler, its handler type and (for aggregates and processes) the instance ID; a timeout's ScheduledFor is exactly the time requested.",HIST,"Must hold for every handler program and every interleaving of scope calls.",[ENV,AGG,PRC,INT])
p("C05","Aggregate state is the replay of its recorded events","When a command reaches an aggregate instance, the root given to HandleCommand is New() with ApplyEvent folded, in order, over exactly the events that instance recorded in earlier successfully completed commands since it was last destroyed or the engine was reset.",HIST,"Histories, instance counts and event counts are unbounded.",[AGG])
p("C06","Aggregate commands are atomic","If handling a command panics, no event recorded during that command becomes part of the instance's history, no instance is created or destroyed, and the next command sees the state from before the failed one.","every aggregate handler program, every engine state, every point at which the panic happens","The crash point is universally quantified.",[AGG])
p("C07","Direct mutation of an aggregate root never persists","Changes a handler makes to the aggregate root other than through RecordEvent are invisible to every later command.","every handler program that mutates its root arbitrarily, every later history","Needs all mutations and all continuations.",[AGG])
p("C08","Destroying an aggregate discards its history","If the last existence-changing call in a command is Destroy on an existing instance, the next command for that instance finds no instance and an empty history; a RecordEvent after Destroy keeps the whole earlier history.","every sequence of RecordEvent/Destroy calls in one command and every prior history","Every interleaving of scope calls.",[AGG])
p("C09","Aggregate and process instances are isolated","Handling a message for one instance of one handler changes neither the stored state of other instances of that handler nor the stored state of any other handler. A Tick changes nothing of instances that none of its facts name either, except that timeouts that are due by then may be gone.","every handler program, every engine state, every pair of distinct instances or handlers","Pairs and states are unbounded.",[AGG,PRC,ENG])
p("C10","Undeclared and invalid messages are never produced","No handler can record, execute or schedule a message whose type it did not declare as produced or whose Validate() fails: the scope call panics with UnexpectedBehavior, emits no production fact, allocates no ID and enqueues nothing, even if the handler recovers from the panic.",HIST,"Quantifies over handler programs that recover and continue.",[AGG,PRC,INT,"engine/internal/panicx/unexpectedbehavior.go: UnexpectedBehavior"])
p("C11","In-command aggregate root agrees with the persisted history","For handlers that change the root only through RecordEvent, the root reported in facts after any sequence of scope calls is New() with the events of the instance applied (those it will have if the command completes now), as long as no Destroy has taken effect in the current command; after a Destroy it is New() with the events recorded since. Hence after Destroy followed by RecordEvent it differs from the root the next command is given, because the whole old history is kept (shown by a witness).","every sequence of RecordEvent/Destroy calls in one command","Needs a universally quantified call sequence; a counterexample refutes it.",[AGG])
p("C12","An aggregate instance exists iff it has recorded events","For handlers that do not recover from panics raised by RecordEvent, an instance is stored iff its history is non-empty. (A recovering handler can create an instance with no events.)",HIST,"Invariant over unbounded histories.",[AGG])
p("C13","Timeouts are never handled early","Whenever a timeout message is delivered to a process handler, its ScheduledFor time is not after the engine time of the operation in progress.",HIST,"All schedules and clock movements, including time going backwards between operations.",[PRC,ENG])
p("C14","Timeouts are neither lost nor duplicated","Each timeout scheduled by a successfully completed, non-ending handling is at every later point exactly one of: still pending, taken for delivery once, or discarded because its instance ended (or the engine was reset).",HIST,"A conservation law over unbounded histories.",[PRC])
p("C15","Pending timeouts belong to live instances","At every point between operations every pending timeout of a process handler belongs to an instance of that handler that currently exists, and is due strictly after the time at which it was scheduled.",HIST,"Invariant over unbounded histories.",[PRC])
p("C16","Timeouts fire in chronological order","The timeouts a single Tick takes from a process handler are exactly those due at or before the engine time and are delivered in non-decreasing ScheduledFor order; those left behind are all due later.","every reachable engine state, every tick time, every sorting routine that returns a sorted permutation","All sets of timeouts, including ties under the unstable sort.",[PRC])
p("C17","Timeouts return to their origin","A timeout is delivered only to the handler that scheduled it and only to the instance that scheduled it; if that instance no longer exists it is ignored with ProcessTimeoutIgnored and no handler method is called.",HIST,"All routing configurations and histories.",[ENG,PRC])
p("C18","Ending a process discards its timeouts","After a process instance ends, no timeout it had scheduled is dispatched by any later operation. The claim does not extend to the operation in which it ended: a timeout that was due when it was scheduled waits in the dispatch queue, and if a further event begins the instance again it is handled by the new instance (refuted by a witness).",HIST,"Needs an adversarial ordering of events; refuted by a witness.",[PRC,ENG])
p("C19","A failed process handling has no engine-visible effect","If HandleEvent/HandleTimeout returns an error (or panics), none of the commands and timeouts it produced are dispatched or stored, no instance is created and none is ended.","every process handler program, every state, every failure point","Universally quantified failure points.",[PRC])
p("C20","Process ending and un-ending","After a handling in which End was called after the last ExecuteCommand/ScheduleTimeout, the instance is gone and its next event begins a new instance with a fresh root; any later ExecuteCommand/ScheduleTimeout reverts the ending and the instance is stored.","every sequence of scope calls","All interleavings of scope calls.",[PRC])
p("C21","Process event routing","An event not routed to an instance causes exactly a ProcessEventIgnored fact and no other effect; a routed event loads the existing instance iff it exists and otherwise begins one with a fresh root.","every process handler, event, state","All states and routing functions.",[PRC])
p("C22","A failing process handler leaves its root untouched","The root handed to HandleEvent/HandleTimeout is the stored root of the instance, or a fresh one; after a success that does not end the instance the root is stored as the method left it; after an error or panic no instance is created, and an existing instance keeps its root unless the method changed it in place. The claim does not extend to in-place changes: they survive an error (refuted by a witness).","every process handler program","Refuted by a witness; the positive part (new instances) is universally quantified.",[PRC])
p("C23","Due timeouts survive cancellation","Every timeout of an enabled process handler that is due when Tick is called is dispatched by that Tick, unless the context is cancelled or a handler panics. The claim does not extend to cancelled Ticks: Tick removes due timeouts from the store before dispatching them, so a cancelled Tick loses them (refuted by a witness).","every engine state, every cancellation point","Cancellation points are universally quantified.",[PRC,ENG])
p("C24","Integration events survive the handler's own error","Events an integration records before returning an error are still dispatched (in order), and the error is still reported.","every integration handler program and engine state","All programs and failure points.",[INT,ENG])
p("C25","Projection compaction interval","A Tick compacts a projection iff at least one hour of engine time has passed since the start of its last Tick-driven compaction, hence two Tick-driven compactions of one handler are never less than an hour of engine time apart.",HIST,"Arbitrary clock sequences including reversal.",[PRJ])
p("C26","Projection OCC protocol","A projection's HandleEvent is invoked for an event iff ResourceVersion(message ID) succeeds with an empty version, always with an empty current and a non-empty next version; CloseResource is called iff HandleEvent reported success; errors are prioritised ResourceVersion, HandleEvent, CloseResource, Compact.","every projection handler program, schedule and state","All programs and interleavings with compaction.",[PRJ])
p("C27","Observers are notified from the caller's goroutine only","While a projection handles an event, the goroutine that compacts it notifies observers of nothing but what Compact() logs, and only if compaction during handling is enabled; every other fact, and every fact if Compact() does not log, is notified from the goroutine that called the engine. The unconditional promise of the code comment (all observers are notified from the caller's goroutine) is false.","every projection handler program and goroutine schedule","A data race is a property of schedules.",[PRJ,"fact/observer.go: Observer"])
p("C28","Compaction-while-handling is bracketed","With compaction during handling enabled, for every goroutine schedule in which nobody panics, the facts of handling an event are ProjectionCompactionBegun, an interleaving of the log messages of the two goroutines, ProjectionCompactionCompleted with the compaction's error.","every handler program and every schedule","Quantifies over schedules.",[PRJ])
p("C29","Reset returns the engine to its initial state","After Engine.Reset the message IDs and the state of all aggregates, processes and integrations are those of a newly constructed engine, so that an application without projections behaves as on a new engine whatever operations follow. The unconditional claim is false: the time of the last compaction of a projection survives Reset, so a reset engine can omit a compaction that a new one performs.",HIST,"All prior histories.",["engine/engine.go: Engine.Reset",PRJ])
p("C30","Every routed event reaches each enabled projection","If ResourceVersion() of a projection knows only resources that were passed to HandleEvent(), and what it knows is forgotten whenever Reset is called, then the events passed to HandleEvent() since the last Reset are exactly the events for which the projection was engaged, each once and in that order, whatever the other handlers, the schedule of the compaction, errors, panics and cancellation. It is false for a projection whose state outlives Reset (refuted by a witness): message IDs restart and are used as the names of resources, so the new event is taken for one that was handled already.","every history with a persistent projection store","Needs a history across Reset.",[PRJ,IDG])
p("C31","Messages are processed in FIFO order","Within Dispatch or Tick, the messages dispatched are exactly the initial message(s) followed by the messages returned by handlers (recorded events; for a process the executed commands and then the timeouts that are already due), handling by handling, each exactly once, unless the context is cancelled or a panic occurs, in which case a prefix of that sequence is dispatched.","every application, state and cascade","Unbounded cascades.",[ENG])
p("C32","Each message is offered to exactly the handlers that consume it","For each dispatched command or event, each handler that declares its type as consumed is engaged or skipped exactly once, and no other handler is; HandlingBegun is emitted iff the handler is not skipped.","every application, options and cascade","All routing tables.",["engine/configurer.go: registerController",ENG])
p("C33","Handler enablement precedence","Whether a handler is skipped is decided by: the per-handler operation option if present (last one wins); otherwise skipped if disabled by its own configuration; otherwise by the handler-type option (last one wins, all types on by default). The skip reason reported is the deciding rule.","every sequence of operation options and every handler","All option sequences.",["engine/engine.go: Engine.skipHandler","engine/operationoption.go: newOperationOptions"])
p("C34","Handler errors are isolated and aggregated","An error from one handler prevents neither the other handlers of that message nor the following messages from being processed; without cancellation the error returned by Dispatch/Tick is nil iff no handler returned an error, and contains every handler error, tagged with the handler's name and type, in order.","every application and cascade, every subset of failing handlers","All failure subsets.",[ENG])
p("C35","Cancellation stops processing at a message boundary","If the context is cancelled, the message being dispatched is still offered to all its handlers, no further message is dispatched, and the context error is returned in place of the errors of the handlings (after the errors of the ticks, if they were completed). Otherwise the operation does the same as with a context that is never cancelled.","every cancellation point","Cancellation points are universally quantified.",[ENG])
p("C36","Facts are properly bracketed","For every operation that does not panic, the facts emitted form a well-nested sequence: cycle begun ... cycle completed; within it for each message DispatchBegun, for each consuming handler either HandlingSkipped or HandlingBegun (controller facts) HandlingCompleted, DispatchCompleted; ticks likewise. If the operation panics the facts are a prefix of such a sequence.","every operation in every state","All traces.",[ENG,"fact/dispatch.go","fact/tick.go"])
p("C37","Dispatch terminates on acyclic applications","If the declared message-type graph (consumed type to produced type, per handler) is acyclic, Dispatch and Tick process finitely many messages; there are cyclic applications on which Dispatch never returns.","every acyclic application, state, handler programs","Termination cannot be tested.",[ENG,AGG,PRC,INT])
p("C38","Rejected dispatches have no effect","Dispatching a timeout, an invalid message, or a message no handler consumes panics before any fact is emitted and changes nothing except that one message ID is consumed.","every engine state and rejected message","All states.",["engine/engine.go: Engine.Dispatch"])
p("C39","All observers see the same facts","Every observer registered for an operation is notified of every fact of that operation, exactly once, in the same order; observers registered earlier see each fact first. Which observers there are changes nothing else: histories of an engine that differ only in them have the same facts, results and states.","every observer list and operation","All observer lists and traces.",["fact/observer.go: ObserverGroup.Notify","engine/operationoption.go: WithObserver"])
p("C40","Operations on one engine are serialised","When any number of goroutines call Dispatch, Tick and Reset concurrently, at most one of them is accessing controllers at any time and the controller accesses of each operation are contiguous; the state of the controllers is the one that results from making the calls one after the other in the order in which they acquired the lock, apart from the message IDs they are given.","every number of goroutines and every schedule","Schedules are unbounded.",["engine/engine.go: Engine.Dispatch, Tick, Reset (field m)"])
p("C41","Message IDs are unique under concurrency","Message IDs allocated concurrently are distinct for every schedule, as long as the engine is not reset (and fewer than 2^64 are allocated). This does not extend to a concurrent Reset (refuted by a concrete schedule): Dispatch allocates its ID before it waits for the lock, so that a message with an ID from before the Reset can be handled after it, and another message with the same ID too.","every schedule","Schedules are unbounded.",[IDG,"engine/engine.go: Engine.Dispatch, Engine.Reset"])
p("C42","Reset clears aggregate, process and timeout state and runs the reset hooks","After Reset no aggregate or process instance exists, no timeout is pending, the next ID is 1 and every hook registered by WithResetter has been called exactly once in registration order.","every engine state","All states.",["engine/engine.go: Engine.Reset","engine/engineoption.go: WithResetter"])
p("C43","The due set of a Tick does not depend on map order","The multiset of timeouts a Tick starts with is independent of the (random) order in which Go iterates over the handlers.","every engine state and every pair of iteration orders","Map iteration order is random at run time.",["engine/engine.go: Engine.tick",PRC])
p("C44","UnexpectedMessage panics are always enriched","The panic that leaves Dispatch() or Tick() is always accounted for: it rejects the call before any fact is notified, or it comes from the handling (or compaction) that was begun last. If a handler method that is given a message panics with dogma.UnexpectedMessage, the panic that leaves the engine is panicx.UnexpectedMessage naming that handler, interface, method and message; every other panic value is passed through unchanged; the innermost call wins. A method that panics always makes the operation panic.","every handler method and panic value","All panics at all call sites.",["engine/internal/panicx/unexpectedmessage.go: EnrichUnexpectedMessage"])
p("C45","ToExecuteCommand / ToRecordEvent semantics","The expectation passes iff some message produced by a handler during the action (or, for Call(), also dispatched through the executor) has the same type as, and compares equal to, the expected message.","every fact sequence, message and comparator","All fact sequences.",["expectation.message.go: messagePredicate.Notify","expectation.messagecommon.go: tracker.Notify"])
p("C46","ToExecuteCommandType / ToRecordEventType semantics","The expectation passes iff some message of exactly that type is produced (or, for Call(), dispatched).","every fact sequence and type","All fact sequences.",["expectation.messagetype.go: messageTypePredicate.Notify"])
p("C47","Matching expectation semantics","ToExecuteCommandMatching / ToRecordEventMatching pass iff the predicate returns nil for some produced message of that kind assignable to its parameter type; ignored and non-assignable messages never make it pass or fail.","every fact sequence and predicate function","All fact sequences and predicates.",["expectation.messagematch.go: messageMatchPredicate"])
p("C48","Exhaustive matching semantics","ToOnlyExecuteCommandsMatching / ToOnlyRecordEventsMatching pass iff every produced message of that kind is assignable to the parameter type and its predicate result is nil or IgnoreMessage (in particular when there is none).","every fact sequence and predicate function","All fact sequences and predicates.",["expectation.messagematch.go: messageMatchPredicate"])
p("C49","Composite expectations are Boolean connectives","AllOf, AnyOf, NoneOf, Not and ToRepeatedly pass iff all / at least one / none / not / all of their children would pass on the same facts; consequently Not(e) and NoneOf(e) agree, and ToRepeatedly(n,f) agrees with AllOf(f(0),...,f(n-1)).","every expectation tree of any depth and width and every fact sequence","Unbounded trees.",["expectation.composite.go","expectation.not.go","expectation.repeat.go"])
p("C50","Impossible expectations are rejected before the action runs","An expectation tree is rejected iff some leaf names a message type the application does not use, or (unless the action is Call) one that no handler produces; then the action is not performed and the test is failed with an error that names the type of the first such leaf, why it is impossible, and the iterations of ToRepeatedly() it is in.","every expectation tree and application","Unbounded trees.",["expectation.messagecommon.go: guardAgainstExpectationOnImpossibleType","test.go: Test.Expect"])
p("C51","Verdicts are stable","Once a message, type or matching expectation has been met, no further fact can unmeet it, and once an exhaustive matching expectation has failed, no further fact can make it pass; this extends to every tree of AllOf, AnyOf, NoneOf, Not and ToRepeatedly built accordingly.","every fact sequence and continuation","All continuations.",["expectation.message.go","expectation.messagetype.go","expectation.messagematch.go"])
p("C52","ToSatisfy semantics","The expectation passes iff a skipping method was called, or no failing method was called, by the function or by its cleanup functions. Statements after FailNow, Fatal, Fatalf or a skipping method are not executed, unless the caller recovers the panic. Failed() and Skipped() reflect the calls made so far; the explanation names the first failing or skipping call; the log holds what was logged, in order. Any other panic propagates if no cleanup function panics or aborts; it does not always propagate otherwise: a cleanup function that calls FailNow hides it.","every user function (sequence of SatisfyT calls)","All call sequences.",["expectation.satisfy.go: satisfyPredicate, SatisfyT"])
p("C53","Cleanup functions run last-in first-out","The functions registered with SatisfyT.Cleanup by the function are run once each after it ended, however it ended, last registered first, up to the first that panics or aborts. It is not true that all are run: those registered before one that calls FailNow or panics are skipped, and those registered by a cleanup function are never run.","every sequence of registrations and aborts","All call sequences.",["expectation.satisfy.go: SatisfyT.close, Cleanup"])
p("C54","The virtual clock never goes backwards","Over any sequence of built-in actions the test's virtual clock is non-decreasing; an adjustment that would reverse it fails without performing a tick or changing anything.","every action sequence and every TimeAdjustment implementation","Unbounded action sequences.",["action.advancetime.go: advanceTimeAction.Do","test.go: Test.doAction"])
p("C55","Actions run at the virtual time","Every engine operation performed by an action uses the virtual clock at the start of the innermost action in progress as engine time, unless the user overrides it with an unsafe option; AdvanceTime sets the clock to the adjusted time and then performs one tick at that time, which unsafe options cannot affect.","every action sequence and option list","All option lists.",["test.go: Test.doAction","action.advancetime.go: advanceTimeAction.Do"])
p("C56","Test handler enablement","A new Test disables integrations and projections and nothing else; EnableHandlers and DisableHandlers affect exactly the named handlers, up to the first unknown one, which makes them panic; EnableHandlersLike and DisableHandlersLike affect exactly the matching handlers that are not disabled in their own configuration, or panic without any effect if a pattern is bad or matches none; the last call wins, what is in force at the beginning of an action applies to all of it, and a handler disabled in its own configuration cannot be enabled through them and is never engaged (without unsafe options).","every sequence of enable/disable calls","All call sequences.",["test.go: Begin, enableHandlers, enableHandlersLike"])
p("C57","The command executor is usable only during Call","ExecuteCommand on the test's executor panics unless a Call action is running, and after a Call action finishes, normally or by panic, the executor is unbound again and the interceptor in force before the Call is restored.","every sequence of actions and every user function","All user functions, including panicking ones.",["executor.go: CommandExecutor","action.call.go: callAction.Do"])
p("C58","The command executor stays usable throughout Call","Throughout a function passed to Call that performs no Call action itself, ExecuteCommand never panics for being outside a test; in any function it does so only after another Call action performed by the function. It is not true that it is usable throughout every function (refuted by a concrete test): a Call performed by the function, on the same test, leaves the outer Call's executor unbound.","every user function including re-entrant ones","Refuted by a witness.",["action.call.go: callAction.Do","executor.go: Bind, Unbind"])
p("C59","Expect fails the test exactly when it should","Expect marks the test failed iff the expectation is impossible, the action returned an error, or the expectation was not met by the facts of the action; the action is performed at most once and the predicate is finalised exactly once when it was created.","every test state, action and expectation","All combinations.",["test.go: Test.Expect"])
p("C60","Reports agree with verdicts","The Ok mark of a report and of every sub-report equals the verdict of the corresponding expectation, and explanations, suggestions and diffs are produced only for failed message expectations that are neither under negation nor part of a passing tree.","every expectation tree and fact sequence","Unbounded trees.",["expectation.composite.go: Report","expectation.not.go: Report","expectation.message.go: Report","report.go"])
p("C61","Repeat reports show the first failure","A failed ToRepeatedly report contains exactly one sub-report, that of the failed iteration with the smallest index, and states the exact number of failed iterations.","every number of iterations and failure pattern","All patterns.",["expectation.repeat.go: repeatPredicate.Report"])
p("C62","Diagnostic counters are exact","What the report of a failed expectation says about the action is true: whether the relevant handler types were enabled, whether relevant handlers were engaged, whether any messages (of the expected kind) were produced; its suggestions list the disabled relevant handler types and the engaged handlers that can produce the expected kind, once each and in order of first engagement.","every fact sequence","All fact sequences.",["expectation.messagecommon.go: tracker"])
p("C63","Diagnostics know about tick cycles","If the handler types that could produce the expected message were all disabled for the last dispatch cycle, the report of the failed expectation says so. This does not hold for tick cycles (refuted by a concrete run): after AdvanceTime with all handler types disabled the report says only that no messages were produced at all, although the diagnostics are documented to know whether a dispatch or tick cycle was started.","every fact sequence","All fact sequences.",["expectation.messagecommon.go: tracker.Notify"])
p("C64","Failed matches are grouped exactly","The failed-matches list of a matching expectation has one entry per distinct (type, error text) in order of first occurrence, with the exact number of occurrences, and counts add up to the number of failures.","every fact sequence","All fact sequences.",["expectation.messagematch.go: messageProduced"])
p("C65","Log lines are deterministic","The list of enabled handlers in a log line does not depend on Go's map iteration order.","every set of handlers and every pair of iteration orders","Map iteration order is random.",["fact/logger.go: formatEnabledHandlers"])
p("C66","Log line layout","Every fact produces at most one log line. It consists of the labelled message, causation and correlation IDs of the message the fact is about, one-cell symbols for direction, type of handler and failure, and the non-empty texts joined by the separator: the handler (and instance), then the details. A failure is shown with the error's text, a produced message with its type and description, and text logged by a handler as it was written.","every fact and text list","All texts.",["fact/internal/logging/write.go: mustWrite","fact/logger.go: Logger.Notify"])
p("C67","Inflection does not depend on map order","inflect.Sprint gives the same result for every order in which Go iterates over its substitution and correction maps.","every input string, kind and iteration order","Map iteration order is random and inputs unbounded.",["internal/inflect/inflect.go: Sprint"])
p("C68","Inflection is complete","inflect.Sprint replaces every placeholder by the word for the kind of message and then every wrong article or plural by the right one, in lower and upper case. Afterwards no placeholder of the kind remains in the text, text without placeholders and ungrammatical phrases is unchanged, and the function is idempotent.","every input string and kind","Unbounded inputs.",["internal/inflect/inflect.go: Sprint"])
p("C69","Location rendering","Location.String includes file and line iff a file is known, and the function name iff it is known and either no file is known or it is not a closure.","every location value","All strings.",["location/location.go: Location.String, isNamedFunc"])
p("C70","Run ticks at scaled time until error or cancellation","RunTimeScaled ticks the engine at epoch plus scaled elapsed time, never ticks again after a tick fails or the context is cancelled, returns that error, and user-supplied options take precedence over the scaled time.","every sequence of clock readings and tick outcomes","Unbounded loops.",["engine/run.go: RunTimeScaled"])
p("C71","fact.Buffer is a consistent log","Under any interleaving of Notify and Facts calls, each call takes effect at one moment between its beginning and its end; hence every Facts() result is a prefix of one sequence of notified facts, which has lost and duplicated none of them when all calls have ended, successive results grow monotonically and contain every fact whose notification had ended; writing into returned slices does not affect the buffer.","every number of goroutines and schedule","Schedules are unbounded.",["fact/observer.go: Buffer"])
p("C72","Report text layout","WriteTo renders each report as a mark line, then non-empty sections indented under it, then sub-reports each line of which is indented by four more spaces, in order; empty sections are omitted.","every report tree","Unbounded trees and texts.",["report.go: Report.WriteTo"])
p("C73","The location of a panic is found","location.OfPanic, called while a panic is being recovered, reports the function that called panic: the first function outside of the runtime below the most recent runtime.gopanic. This holds if that function is among the first eight program counters of the stack; beyond that depth it does not (refuted by a concrete stack), although the code is written to read the whole stack. location.OfCall reports where its caller was called.","every call stack, with any inlining","Stacks are unbounded.",["location/location.go: OfPanic, OfCall, eachFrame"])
p("C74","Internal panics are unreachable","Whatever the application does, the engine panics only with values its users raise or with the panics documented for them: the branches of the code that panic because of an impossible handler, route or message kind are never reached in any history.","every configuration, user behaviour and history","Unreachability quantifies over all histories.",["engine/engine.go","engine/internal/aggregate/controller.go","engine/internal/process/controller.go","engine/internal/integration/controller.go","engine/internal/projection/controller.go"])
p("C75","Prepare fails the test exactly when an action fails","Prepare marks the test as failed iff its action returns an error, and reports that error; a panic of the action propagates and does not mark the test as failed; the action is performed exactly once, without a predicate observing it.","every action and test state","All actions.",["test.go: Test.Prepare"])
p("C76","A test is a history of the engine","Whatever a test does, through actions, nested Call functions, executors and interceptors, what happens to its engine is one sequence of Dispatch and Tick calls with the facts observed, so that every property of engine histories holds of tests.","every test program, however nested","Programs are unbounded.",["test.go","action.call.go","action.dispatch.go","action.advancetime.go","engine/executor.go"])
p("C77","Concurrent calls of an engine end","However many goroutines call Dispatch, Tick and Reset of one engine, with handlers that do not call the engine themselves, there is no deadlock (as long as some call has not ended, some goroutine can make a step) and no schedule in which calls of terminating handlers go on for ever.","every number of goroutines and every schedule","Schedules are unbounded.",["engine/engine.go: Engine.Dispatch, Tick, Reset (field m)"])
p("C78","No message is dispatched twice","Since the last Reset, no two dispatches, whether by Dispatch or by Tick, are of messages with the same ID (as long as the 64-bit counter of IDs does not wrap around); hence no handler is engaged twice by the same message, and each is engaged only by messages of the types it consumes and, if it is a process, by timeouts it scheduled.",HIST,"All histories, including failed and cancelled operations.",[ENG,PRC,IDG])
p("C79","Timeouts in tests","In a test, a process never handles a timeout before the virtual clock reaches the time for which it is scheduled (unless an unsafe option sets the engine time). An AdvanceTime whose tick is not cut short dispatches every timeout that is pending and due at the new time, for every process that is enabled; afterwards every timeout of such a process that is still pending, including those scheduled by the messages dispatched during the tick, is for a later time.","every test program, application and schedule of timeouts","Unbounded histories of timeouts.",["action.advancetime.go: advanceTimeAction.Do","test.go: Test.doAction","engine/internal/process/controller.go: Controller.Tick"])
p("C80","Failed ToSatisfy expectations are located at the innermost non-helper call","When a function given to ToSatisfy (or a function it calls) is the first to call a failing or skipping method, the explanation in the report names that method and the file and line of the innermost call in progress whose function has not called Helper, or of the call in the function given to ToSatisfy if all of them have; it says 'called at' if that is where the method was called and 'called indirectly by call at' otherwise. The same holds for cleanup functions unless all functions up to the cleanup function are helpers. Refuted: a cleanup function that calls Helper makes the explanation point into testkit itself, and more than 50 nested helpers make it point into a helper.","all functions given to ToSatisfy, with any nesting of calls, helpers, panics, recoveries and cleanup functions, and all stacks above Done","The number of nested helpers and cleanup functions and the order of the calls are unbounded.",["expectation.satisfy.go (SatisfyT.explain, findFrame, Helper, callerName, stack)"])
p("C81","What an Expect() considers and what an action dispatches","In every test, the expectation of an Expect() considers the messages produced by handlers, and those dispatched by the action itself exactly if the action is Call(); messages are compared with the comparator given last to Begin(), whatever happened in between; a message type counts as used or produced according to the handlers of the application. ExecuteCommand() and RecordEvent() of a message that no handler consumes or produces fail the test without dispatching anything; otherwise they perform one dispatch of that message, and fail the test exactly if it returns an error.","all tests (all programs using a Test), all options, all applications, messages and actions","The history before the Expect() and the application are arbitrary.",["test.go (Test.Expect)","action.call.go (callAction.ConfigurePredicate)","action.dispatch.go (dispatchAction.Do)","compare.go (WithMessageComparator)"])
p("C82","Concurrent use of the CommandExecutor of a test","However goroutines interleave calls of ExecuteCommand, Bind, Unbind and Intercept on one CommandExecutor: while a call of ExecuteCommand is in progress no Bind, Unbind or Intercept takes effect, so that Unbind (the end of a Call action) waits for the commands being executed; a call of ExecuteCommand panics if the executor was not bound when it was called, otherwise it calls the interceptor installed at that time with the engine bound at that time, or has that engine handle the command. If interceptors do not use the executor they intercept and handlers use neither executors nor engines, there is no deadlock and every schedule ends; each of these conditions is necessary.","all goroutine programs, interceptors, handlers, engines and schedules, including contexts that end while a call waits for the engine","the interleavings are chosen by the Go scheduler and the lock; tests see a few of them",["executor.go: CommandExecutor.ExecuteCommand, Bind, Unbind, Intercept","engine/executor.go: CommandExecutor.ExecuteCommand","action.call.go: callAction.Do"])
p("C83","The diff of a report tells both messages","The text of the Message Diff section determines the rendering of the expected message and of the most similar message, provided that neither rendering contains one of the markers {+, +}, [- and -] (with markers it does not); a diff in which nothing is marked is of equal texts and is that text.","all texts and all ways to split them into equal, inserted and deleted pieces","the texts and the pieces are arbitrary; ambiguity concerns pairs of inputs",["internal/report/diff.go: WriteDiff","expectation.message.go: messagePredicate.buildDiff"])
p("C84","A SatisfyT used by several goroutines","The *SatisfyT passed to a ToSatisfy() function may be used by several goroutines. Each goroutine makes exactly the calls its code says; Failed() and Skipped() answer according to all calls made so far by whichever goroutine; cleanup functions registered by any goroutine before the function ended are run, the last one first; if the other goroutines have ended when the function and its cleanup functions have, the verdict and the report (outcome, first failing or skipping call, log) are those of all calls made; a goroutine that calls FailNow(), Fatal() or a skipping method does nothing more until its panic is recovered or ends the process; no method blocks for good unless formatting an argument uses the *SatisfyT itself (then it does), and every schedule ends. Used by one goroutine it behaves as the sequential properties say. Goroutines left behind can change the verdict between the answer and the report, and cleanup functions they register late are never run; FailNow() in another goroutine ends the process.","all functions, all goroutines they start, all arguments of methods and all schedules","data races and deadlocks depend on the schedule, which tests do not control",["expectation.satisfy.go: SatisfyT, satisfyPredicate.Done, satisfyPredicate.Ok, satisfyPredicate.Report"])
p("C85","User-defined expectations are used as documented","Whatever the user's implementations of Expectation and Predicate do, inside any tree of AllOf(), AnyOf(), NoneOf(), Not() and ToRepeatedly(): a call of Expect() creates the predicates, notifies each of them of the facts of the action, in order, calls Done() on each of them exactly once after the last Notify() (however the action ends), and only then Ok() and Report(), Report() at most once. The test fails exactly if the Boolean combination of the predicates' answers is negative. Exceptions, each shown by a counterexample: predicates created before the Predicate() of a sibling fails are abandoned without Done(); a Done() that panics prevents the Done() of later siblings; a Notify() that panics (in an action that recovers) hides that fact from later siblings.","every expectation tree over every implementation of the interfaces (with arbitrary state, errors, panics), every action and every sequence of facts","The order of calls must hold for every implementation and every way an action can end; the unit tests use a handful of static expectations.",["expectation.go: Expectation, Predicate","expectation.composite.go: compositeExpectation.Predicate, compositePredicate","expectation.not.go: notExpectation, notPredicate","expectation.repeat.go: repeatExpectation.Predicate, repeatPredicate","test.go: Test.Expect"])
p("C86","A panicking observer does not corrupt the engine","However observers given to Dispatch and Tick panic, and whether or not handlers recover panics that come out of their scopes: aggregate histories, process instances and pending timeouts stay exactly those told of by the facts notified (facts that announce something count only if all observers returned); a handling that panics leaves no events, timeouts or instances behind; message IDs stay unique; compactions stay an hour apart; the engine is never left locked, so later operations are performed; an observer misses a fact only because an earlier observer of the same operation panicked on it; if handlers let panics through, the operation panics with that panic and all observers have seen the same facts up to the last. What does not survive such a panic: the delivery of events already kept and of timeouts already taken out of a process.","all applications, all handler programs (including those that recover panics of scope methods), all observers (functions of the fact and the user's world that may panic with any value), all sequences of operations on an engine, going on after panics","The panic can strike at any of the notifications of any operation and after any history; tests use observers that never panic.",["fact/observer.go: ObserverGroup.Notify","engine/engine.go: Engine.Dispatch, Engine.Tick, Engine.Reset","engine/internal/aggregate/scope.go: scope","engine/internal/process/scope.go: scope","engine/internal/process/controller.go: Controller.Handle, Controller.Tick"])
p("C87","User-defined actions get fresh, correct scopes and are judged correctly","A test may use actions that the user implements, with everything an ActionScope offers: the engine, the operation options, the virtual clock and the executor. Whatever such actions do, nested in each other in any way: each action is given the current virtual time, the options of the test and all handlers enabled and disabled so far; predicate options changed by one action are not seen by the next; commands are executed exactly while the executor is bound and with the options it was last bound with; everything done to the engine is one history of the engine, so all its properties hold; Expect() passes exactly if the expectation is met by the facts of operations given the predicate's observer, and logs, reports and fails accordingly; Prepare() fails exactly for errors. The built-in actions do what code with an ActionScope could do. The virtual clock may be set back and the executor may stay bound, because nothing prevents user-defined actions from it.","all applications, environments and options of Begin(), all programs built from user-defined actions and test code that use the ActionScope in any order and depth, with panics, Goexit and deferred functions","Actions are an interface for users: tests exercise the three built-in ones only; interference between actions shows in sequences and nestings of any length.",["action.go: Action, ActionScope","test.go: Test.Prepare, Test.Expect, Test.doAction","executor.go: CommandExecutor.Bind, Unbind, Intercept, ExecuteCommand","expectation.go: PredicateOptions"])
p("C88","Functions that build actions and expectations reject wrong arguments and otherwise mean what they say","An expression that builds an expectation from others panics exactly if the arguments of one of its calls are wrong (nil or invalid messages, nil functions, no children, empty descriptions, repetitions below one, nil where a caption is needed); the panic is about the first such call and has the form \"Function(...): reason\". Otherwise the expectation holds of facts exactly if the expression, read as English, does; AllOf(e), AnyOf(e) and e are the same, as are Not(e) and NoneOf(e) including their captions. Likewise for ExecuteCommand, RecordEvent, AdvanceTime with ToTime and ByDuration, and Call with InterceptCommandExecutor. Two exceptions are proved: the panic of ExecuteCommand for an invalid command names another function, and nil children of AllOf and AnyOf are not rejected when they are given.","all expressions built from the functions of the package, of any size, all arguments including nil, all functions that render types, texts and times","Expressions nest without bound, and which call is reported depends on the order of evaluation; tests build each function alone with few arguments.",["action.dispatch.go: ExecuteCommand, RecordEvent","action.advancetime.go: AdvanceTime, ByDuration, ToTime","action.call.go: Call","executor.go: InterceptCommandExecutor","expectation.composite.go: AllOf, AnyOf, NoneOf","expectation.not.go: Not","expectation.message.go: ToExecuteCommand, ToRecordEvent","expectation.messagetype.go","expectation.messagematch.go","expectation.repeat.go: ToRepeatedly","expectation.satisfy.go: ToSatisfy"])
p("C89","Shared slices and roots do not interfere","The engine passes around slices of envelopes whose arrays are shared (a process' Tick gives away the front of the array whose rest it keeps as pending timeouts; an aggregate's events are appended to its history; histories and queues are extended by append) and roots that are shared by reference. None of this can be observed: whatever capacities append() chooses and whatever is in memory, the facts, results and what the engine knows are those of an engine in which slices and roots are copied values. Slices kept between operations contain no nil. An aggregate root that was given to an observer is not changed by later operations; the root of a process instance is.","every application, sequence of dispatches, ticks and resets, capacity policy of append(), and initial memory","aliasing bugs show up only for particular capacities, sequences of appends and interleavings of handlers, which differ between Go releases",["engine/internal/process/controller.go:Controller.Tick,Controller.update,Controller.delete","engine/internal/aggregate/controller.go:Controller.Handle","engine/internal/aggregate/scope.go:scope.RecordEvent","engine/internal/process/scope.go:scope","engine/internal/integration/scope.go:scope.RecordEvent","engine/engine.go:Engine.Dispatch,Engine.Tick"])
p("C90","User code cannot interfere with the options of a test","Each action is given, in this order, the time of the virtual clock, the options every test starts with, those of WithUnsafeOperationOptions(), those of EnableHandlers() and its siblings so far, and the observer of Expect(). This is so whatever user-defined actions and other user code did with the slices of options they were given earlier: appending to them, changing elements, keeping them for later. Dispatching actions call the engine with exactly these options, AdvanceTime() with these and the new time, and during Call() the executor uses exactly these. AdvanceTime() does not change the options in the scope it is performed with; but it may overwrite options that a user-defined action has appended to those of its scope before performing AdvanceTime() with that scope, and such an action does not see the new time in the options of its scope.","every sequence of calls of a test, every user-defined action, function given to Call() and other user code that uses slices of options, every capacity policy of append()","interference through shared arrays depends on capacities, and on what user code does with slices it has kept",["test.go:Test.doAction,Test.EnableHandlers,BeginContext","testoption.go:WithUnsafeOperationOptions","action.advancetime.go:advanceTimeAction.Do","action.call.go:callAction.Do","action.dispatch.go:dispatchAction.Do","executor.go:CommandExecutor.ExecuteCommand"])
p("C91","The log of a test tells what happened","The heading of each Prepare() and Expect() is logged first and consists of the captions of the action and the expectation. Then come the lines of the fact logger, one for each fact that is not silent, in order and not twice, whatever options the user gives. After them an Expect() logs exactly one report, with a tick if the expectation is met and a cross if it is not, or one fatal error. The test has failed if and only if its log has a fatal error or a report with a cross. An expectation of the user can report something else than its verdict, and an action of the user can attach the fact logger a second time; nothing else can.","all applications, environments, sequences of steps, actions and expectations including those of the user, and options","A test looks at the log of a few runs; that the log and the verdict agree must hold for every sequence of steps, every outcome of an action and every predicate.",["test.go: Test.Prepare, Test.Expect, logf","fact/logger.go: Logger.Notify","report.go: Report.WriteTo","expectation.messagecommon.go: guardAgainstExpectationOnImpossibleType","action.dispatch.go: dispatchAction","action.advancetime.go: advanceTimeAction"])
p("C92","Names appear verbatim","The names of message types and handlers and the locations of predicates appear unchanged in captions, reports and errors, with the words around them in the right form, although they are inserted before the text is inflected. This holds for every name without \"<\" and spaces, and in general for every name without placeholders and without ungrammatical phrases. The captions of ExecuteCommand() and RecordEvent() need in addition that the name does not end in the wrong article as a word: an event of type main.a is shown as main.an.","all names and locations, kinds of messages, expectations and histories","Inflection replaces text everywhere, also across the boundary between a name and the words around it, so every name is a different case.",["internal/inflect/inflect.go: Sprint, Sprintf, Errorf","expectation.message.go: messageExpectation.Caption, messagePredicate.Report","expectation.messagetype.go: messageTypeExpectation.Caption","expectation.messagematch.go: messageMatchExpectation.Caption","expectation.messagecommon.go: guardAgainstExpectationOnImpossibleType","action.dispatch.go: dispatchAction.Caption"])
p("C93","Panics name the handler, the method and the message","When Dispatch() or Tick() panics and handlers panic only with values of their own, with dogma.UnexpectedMessage or with panics they recovered from their scope, the printed panic explains itself: either the call was rejected before any fact was notified and the text states the message type and why (invalid, or not consumed by any handler); or it names the handler whose handling was begun last, the type and method of it that was running, and either the type of the message that was not expected (the message being handled, or an event the handler declares, for ApplyEvent()) or what the handler did wrong (an empty instance ID, a nil root, a message type it does not declare, an invalid message with its validation error); or it is a value made by the user.","all applications whose handlers do not invent panic values of the engine, all histories, operations and messages","Every handler, method, message and history is a different case.",["engine/internal/panicx/unexpectedbehavior.go: UnexpectedBehavior.String","engine/internal/panicx/unexpectedmessage.go: UnexpectedMessage.String, EnrichUnexpectedMessage","engine/engine.go: Dispatch","engine/internal/aggregate/controller.go: Handle","engine/internal/aggregate/scope.go: RecordEvent","engine/internal/process/controller.go: Handle","engine/internal/process/scope.go: ExecuteCommand, ScheduleTimeout","engine/internal/integration/scope.go: RecordEvent"])
p("C94","The first line of a report counts the failures","The first line of the report on AllOf(), AnyOf() or NoneOf() names the connective and, if the expectation is not met, states how many of the children failed (or passed unexpectedly), and nothing otherwise; that of ToSatisfy() carries its description and says whether the expectation was skipped or failed; that of ToRepeatedly() carries its description; that of Not() is \"do not\" and what the child expects; reports on message expectations carry no such remark.","every expectation tree, scope and fact sequence","Unbounded numbers of children and all patterns of verdicts.",["expectation.composite.go: AllOf, AnyOf, NoneOf, compositePredicate.Report","expectation.satisfy.go: satisfyPredicate.Report","expectation.repeat.go: repeatPredicate.Report","expectation.not.go: notPredicate.Report"])
p("C95","Facts are a transcript of what the handlers do","The facts of a Dispatch() or Tick() that is not rejected tell exactly what the handlers did, in order. For each handling, the handler's method for the message is called with that message, the routed instance ID, the root that the facts name and the times of the message (RecordedAt, ScheduledFor, Now), in the state of the world that the previous handler left. Every call the method makes on its scope (RecordEvent, ExecuteCommand, ScheduleTimeout, Destroy, End, Log) is told by exactly its own facts, in the order of the calls, with the message, the due time, the text and the root at that moment; a call is refused, with a panic and no fact, exactly if the handler does not declare the message or the message is invalid. The error or panic of the handling is the one with which the method ended. Nothing else in the engine changes the world of the user.","every application, every history of operations, every user-defined handler method (arbitrary interaction trees, which may recover from panics of their scope), every state of the world and of the roots, every interleaving of HandleEvent with Compact","Handler methods are arbitrary code, so transcripts form an unbounded family: any sequence of calls, refused calls that the method recovers from, mutations in between, ending and un-ending, and any interleaving with a concurrent compaction.",["engine/internal/aggregate/scope.go:scope","engine/internal/aggregate/controller.go:Controller.Handle","engine/internal/process/scope.go:scope","engine/internal/process/controller.go:Controller.Handle","engine/internal/integration/scope.go:scope","engine/internal/projection/controller.go:Controller.Handle","engine/engine.go:Engine.Dispatch, Engine.Tick"])
p("C96","Annotations appear in every later report, and change nothing else","Every report of a test renders messages with all annotations made by Annotate() before the report, in the order in which they were made, including those made while the action was being performed. Each annotation's text is shown for exactly those values that have the very type of the annotated value and are equal to it (by proto.Equal for protocol buffers messages, by reflect.DeepEqual otherwise); a value in a variable of an interface type is annotated once, and a nil annotation annotates nothing. Removing all calls of Annotate() from a test changes nothing but the differences between messages shown in reports: the same handlers are called, the same facts observed, and the test passes, fails, panics or stops as before.","every application, test (including calls of Annotate() by user actions, nested Expects and inside Call()), every list of annotations and every value rendered","A test annotates one or two values of one type in one message; the claim is about every value of every type in every report, and about the absence of side effects in every test.",["test.go: Test.Annotate, Test.Expect","compare.go: equal","report.go: Annotation"])
p("C97","Engines are built as their options say, and handler order only matters between consumers of one type","engine.New() and MustNew() give an engine exactly one controller per handler of the application, found under the handler's name, and for each message type the handlers that consume it, each once; Reset() runs all hooks given to WithResetter(), in the order of the options; projections compact while handling events exactly if the last EnableProjectionCompactionDuringHandling() option says so (false if there is none). Nothing but WithResetter(nil) makes building an engine panic. The order in which an application's handlers are visited (that of a Go map) affects only the order in which the handlers of one type get a message: if no command or event type has two consumers, every history of operations on the engine has the same facts, results and states whatever the order.","every application, list of engine options, order of the handlers, and history of operations","The order in which configkit visits handlers differs from run to run; a test sees one order and one list of options.",["engine/engine.go: New, MustNew","engine/configurer.go: configurer","engine/engineoption.go: WithResetter, EnableProjectionCompactionDuringHandling, newEngineOptions"])
p("C98","Writing a report to a failing writer","Report.WriteTo() (and the function that writes a log line) passes its text to the writer piece by piece and in order, at every level of sub-reports. With any writer that keeps the contract of io.Writer, and whenever it fails: if no call of the writer fails, exactly the text of the report is written, its length is returned, and no error; if a call fails, the writer is not called again, what was written is a prefix of the text of the report, and the error of the writer is returned together with a count of zero (not with the number of bytes written, as io.WriterTo documents).","every report (with any nesting of sub-reports and any sections) or log line, and every writer: any behaviour depending on all earlier calls, failing at any call and after any number of bytes","Tests use strings.Builder, which never fails; the property is about every point of failure.",["report.go: Report.WriteTo","fact/internal/logging/write.go: Write, mustWrite","fact/internal/logging/icon.go: Icon.WriteTo, IconWithLabel.WriteTo"])
p("C99","Reset hooks that panic","Engine.Reset() forgets message IDs, aggregate histories, process instances and their timeouts before it calls the functions given to WithResetter(), so this happens even if one of them panics. The functions are called in the order they were given, up to the first that panics; the caller of Reset() gets that very panic, and the engine is unlocked and usable. Such panics have no other effect: if the functions are replaced by one that does the same to the user's world but never panics, every sequence of operations has the same facts, ends in the same state and has the same results, except that Reset() returns.","every list of reset functions (arbitrary effects and panics), engine state, and sequence of operations with observers and handlers that may panic","A test tries one panicking hook at one point of one history.",["engine/engine.go: Engine.Reset","engine/engineoption.go: WithResetter","engine/controller.go: controller"])
p("C100","Roots that user code has kept","Handlers and observers get pointers to roots, which user code may keep and change later, between operations of the engine. Changing aggregate roots has no effect at all: the facts, the results and what the engine knows are as if each root was a copied value. Changing the root of a process instance replaces the state of that instance, and has no other effect.","every application, history of operations, capacity policy of append(), and every sequence of changes to roots made before, between and after operations","A test changes one root at one point of one history; whether anything else is reachable from it is a question about all of memory.",["engine/internal/aggregate/controller.go: Controller.Handle","engine/internal/process/controller.go: Controller.Handle, Controller.update","fact/aggregate.go: AggregateInstanceLoaded","fact/process.go: ProcessInstanceLoaded"])
p("C101","Run() delivers every timeout, whatever other goroutines do","Any other goroutines may dispatch messages, tick, reset the engine and so on between the ticks of a Run() or RunTimeScaled(). What they and the run do together is a history of the engine, so everything said of all histories holds. Each tick of the run that is not cut short by its context dispatches every timeout that is pending by then and due at the tick's time, whoever caused it to be scheduled, for each process that is enabled; afterwards every pending timeout of theirs is for later. So, if the run goes on without failing and its time grows without bound, no timeout waits for ever: each is taken for delivery, or discarded because its instance ended, or forgotten by a Reset().","for all applications, histories before the run, epochs, scales, options, sequences of operations of other goroutines between the ticks (also infinite ones), timeouts and processes","Tests run for a fraction of a second with a handful of operations; that no timeout waits for ever is a statement about infinite runs and all interleavings.",["engine/run.go:Run, RunTimeScaled","engine/engine.go:Tick, Dispatch, Reset","engine/internal/process/controller.go:Tick"])
p("C102","A disabled handler might as well be absent","However an engine has been used so far, if a handler is disabled (by configuration, by type or by name) during all the operations that follow, these operations go exactly as on an engine whose application lacks that handler and whose options do not name it: the same facts in the same order except those that say the handler was skipped, the same effects on the state of every other handler and on the outside world, the same returned errors and the same panics. The only exception is dispatching a message that nobody else consumes: it is accepted and skipped, whereas an application without the handler rejects it.","every application, every handler of it, every history of the engine, every sequence of later operations (options, contexts, schedules, orders of map iteration) during which the handler is disabled","It compares two whole applications over every history: a leak (a skipped handler that consumes a message ID, queries the context, changes a queue order or is consulted for a timeout) would only show for particular mixes of handlers, options and cancellations.",["engine/engine.go: Engine.Dispatch, Engine.Tick, Engine.handle, skipHandler","engine/operationoption.go: EnableHandler, newOperationOptions"])
p("C103","A test does not depend on the real time","What time.Now() returns while a test runs changes nothing about it: the same actions, operations, facts, reports and failures in the same order, the same final state of the test, its engine and every handler, and the same ending, for whatever code the test and the functions it calls consist of. When a test begins matters only if no StartTimeAt() option says otherwise. Likewise one operation of an engine that is given WithCurrentTime() does not depend on the real time.","every test (its whole code, including nested calls, interceptors and annotations), every application, every set of test options, every pair of sequences of clock readings, every schedule of the rest of the surroundings","It compares two runs of arbitrary test code under clocks that differ in every reading; one forgotten path that uses the default time of an operation (a nested executor, a tick after AdvanceTime, an interceptor that executes twice) would show only for that mix of calls, and only as flakiness.",["test.go: Begin, Test.options","testoption.go: StartTimeAt","engine/operationoption.go: newOperationOptions, WithCurrentTime","action.advancetime.go: AdvanceTime","executor.go: CommandExecutor","engine/engine.go: Engine.Dispatch, Engine.Tick"])
p("C104","Expectations look but do not touch","A test does the same as the test that has Prepare(a) in place of every Expect(a, e), also within functions given to Call(): the same actions and operations at the same times, the same facts, the same effects on handlers, clock and enablement, the same errors and the same ending, unless and until an expectation fails or is rejected. Then the test stops, and its facts are the first facts of the test without expectations. So two tests that differ only in expectations that are met do the same. (Of expectations whose ToSatisfy functions do not panic, with a TestingT whose Fatal and FailNow stop the test.)","every test (its whole code, including nested calls, interceptors and code that recovers panics), every application and state of the test, every combination of expectations, every schedule","It compares the whole effects of arbitrary tests with and without arbitrary expectations; an observer that alters the options of later operations, a predicate that consumes an ID or a report that changes the test's state would show only for particular nestings of calls and expectations.",["test.go: Test.Expect, Test.Prepare, doAction","action.call.go: callAction.Do","expectation.go: Expectation, Predicate","engine/operationoption.go: WithObserver"])
p("C105","Enabling handlers by pattern does not depend on map order","EnableHandlersLike() and DisableHandlersLike() iterate over a Go map of the matching names. Whatever the order of iteration, each time, the test does the same afterwards: the same actions, operations, facts, reports, failures and ending, and the same set of enabled and disabled handlers; only the order among the options that have been added differs.","every test (its whole code), every application, every pair of orders in which sets of names are iterated over, every list of patterns, every interleaving with EnableHandlers and DisableHandlers","Go randomises map iteration, so a dependence on it shows up as flakiness for particular combinations of overlapping patterns and later enablement; it has to be excluded for all orders at once.",["test.go: Test.EnableHandlersLike, Test.DisableHandlersLike, enableHandlersLike","engine/operationoption.go: EnableHandler, newOperationOptions"])
p("C106","An interceptor that passes commands on changes nothing","A test with an InterceptCommandExecutor() option whose function just calls the executor it is given with the command it is given and returns the result goes exactly as the test without the option: the same events, facts, reports and ending. The same is true of such an option of a Call() in a test that has no interceptor.","every test (its whole code, including nested calls with interceptors of their own, errors and panics of commands), every application and all other options of the test","It compares whole runs of arbitrary test code; a wrapper that loses an error, swallows a panic, drops an option (and with it the virtual time or an observer) or is not removed in time would show only for particular nestings.",["executor.go: CommandExecutor.ExecuteCommand, InterceptCommandExecutor","action.call.go: callAction.Do","test.go: Begin"])
p("C107","What an operation does depends only on the instances it names","Let an engine operation that does not panic notify of no fact about some instance of an aggregate or a process. If it is a Dispatch, then it does exactly the same (the same facts in the same order, the same errors, the same new message IDs, the same effects on the user's world) on an engine on which that instance has a different past: never created, created, destroyed, with other events, another root or other pending timeouts; and afterwards the two engines again differ in that instance only. Every operation, ticks included, does the same if only the events or the root of the instance differ.","all applications, all pairs of engine states that differ in one instance of one handler only, all operations, contexts, orders of iteration and sorting, and all handler code","A relation between two runs from different states, over all states: a test compares particular histories and cannot show that no state of the other instance leaks into the handling of this one.",["engine/internal/aggregate/controller.go:Controller.Handle","engine/internal/process/controller.go:Controller.Handle","engine/internal/process/controller.go:Controller.Tick","engine/engine.go:Engine.Dispatch","engine/engine.go:Engine.Tick"])
p("C108","Ticking twice is ticking once","A Tick at a time at which no pending timeout of an enabled process is due, and every enabled projection was compacted less than an hour ago, changes nothing: it dispatches nothing, consumes no message ID, runs no user code, and notifies only that each handler was ticked or skipped; and whatever is done afterwards is observed to go as it would have gone without that Tick. After any Tick that is neither cancelled nor ended by a panic the engine is in that situation for the time of the Tick, whatever the handlers did, so ticking again at the same time, or at an earlier one, has no effect, even with other operations in between that are not performed at a time before that of the first Tick. No operation ever makes anything due at or before its own time, even if it fails, panics or is cancelled: a timeout that is already due when it is scheduled is handled within the operation itself. In a test, an AdvanceTime that leaves the time where it was at the previous AdvanceTime dispatches nothing and reports no error, whatever was done in between.","all applications, reachable engine states, operations, options, contexts, iteration orders and handler code","What is due after a Tick depends on everything the handlers of the whole cascade scheduled; tests try particular cascades.",["engine/engine.go:Engine.Tick","engine/engine.go:Engine.Dispatch","engine/internal/process/controller.go:Controller.Tick","engine/internal/process/scope.go:scope.ScheduleTimeout","engine/internal/projection/controller.go:Controller.Tick"])

out = os.path.join(os.path.dirname(os.path.abspath(__file__)), "..", "properties.jsonl")
with open(out, "w") as f:
    for x in P:
        f.write(json.dumps(x, ensure_ascii=False) + "\n")
print(len(P))
