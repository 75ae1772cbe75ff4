# Formal model of dogmatiq/testkit in Rocq (Coq 8.16.1)

This document describes what is modelled, how each property of
`properties.jsonl` is stated and proved, and what has to be trusted.

## 1. Trusted base

* Coq 8.16.1's kernel (and `coqc`'s loading of the std++ library).
* The faithfulness of the hand-written model in `rocq/theories/*Model.v` (each
  definition cites the Go file and lines it models, and says what is simplified).
* Axioms: each property file ends each theorem with `Print Assumptions`; section 6
  gives the result: "Closed under the global context" everywhere.  No axiom of our
  own, no functor, no module type, no `Admitted`.

## 2. Modelling approach

* Go code is translated, function by function, into total Gallina functions in
  state + writer + panic style: a function takes the state and returns the new
  state, the list of facts notified (in order) and an outcome (`Ok`, `Pan` for a
  panic, `Fuel` when an explicit iteration budget is used up).  Theorems about
  the dispatch loop hold for every fuel, so they also speak about executions
  that never end (all finite prefixes).
* User code (handlers, test functions, interceptors, functions given to
  `ToSatisfy`) is arbitrary: a well-founded interaction tree whose nodes are the
  calls the code can make, reads/updates of an abstract user world `U`, mutation
  of the root object, return, and panic.  The continuation of a call is told
  whether the call panicked, so code that `recover()`s is covered.  Messages carry
  an abstract payload `D`; roots have an abstract type `Root`.
* Nondeterminism is explicit: cancellation, lock acquisition, foreign ID
  allocations by concurrent goroutines and the goroutine scheduler are oracles
  (arbitrary functions of a step counter); Go's map iteration order is a
  permutation argument; the unstable `sort.Slice` is an arbitrary function
  returning a sorted permutation.
* Goroutines (engine, fact buffer, projection compaction) are small-step machines
  that interleave atomic steps; theorems quantify over all schedules.
* Times are integers (nanoseconds); message IDs are the decimal rendering of a
  counter modulo 2^64.

Files come in groups: `XModel.v` (model of the code), `XSpec.v` (the vocabulary
used by the statements, independent of the model's helpers), `X*Lemmas.v`,
`X*Proof.v` (proofs), `PropsX.v` (the theorems, their `Print Assumptions`, and
examples showing that their hypotheses are met), `*Demo.v` (concrete applications
and runs used by the examples and refutations).

## 3. What is modelled

| Part | Model file |
|---|---|
| envelope/*.go, fact/*.go structs, handler.go, engine/internal/panicx | `BaseModel.v` |
| dogma handler interfaces, as programs | `HandlerModel.v` |
| engine/internal/aggregate | `AggregateModel.v` |
| engine/internal/process | `ProcessModel.v` |
| engine/internal/integration | `IntegrationModel.v` |
| engine/internal/projection | `ProjectionModel.v` |
| engine/engine.go, configurer.go, executor.go, operationoption.go, engineoption.go | `EngineModel.v` |
| engine/run.go | `RunModel.v` |
| goroutines using one Engine and its MessageIDGenerator | `ConcModel.v` |
| goroutines, interceptors and handlers using one test's CommandExecutor (executor.go) | `ExecModel.v` |
| fact.Buffer (fact/observer.go) with its slices and RWMutex | `BufferModel.v` |
| expectation.*.go, tracker, reportNoMatch | `ExpectModel.v` |
| report.go | `ReportModel.v` |
| expectation.satisfy.go | `SatisfyModel.v` |
| goroutines using one `*SatisfyT` (expectation.satisfy.go) | `SatConcModel.v` |
| user-defined expectations and predicates in trees of expectations (expectation.go, expectation.{composite,not,repeat}.go, Test.Expect) | `PredProtoModel.v` |
| test.go, testoption.go, action.*.go, executor.go, compare.go (option) | `TestModel.v` |
| fact/logger.go, fact/internal/logging | `LoggerModel.v` |
| internal/inflect | `InflectModel.v` |
| internal/report/diff.go | `DiffModel.v` |
| `test.go`, `action.go`, `executor.go` again, with actions defined by the user that use all of their `ActionScope` | `ActModel.v` |
| `action.*.go`, `expectation.*.go`, `executor.go`: the exported functions that build actions and expectations, and captions | `FrontModel.v` |
| Run() and RunTimeScaled() again, with operations of other goroutines between the ticks: `engine/run.go:44-76` | `ShareModel.v` |
| the engine and its controllers again, with slices on shared arrays and roots as shared objects: `engine.go:67-238`, `engine/internal/{aggregate,process,integration}/{controller,scope}.go` | `MemModel.v` |
| the slices of operation options: `test.go:49-97,120-128,204-320`, `testoption.go:38-42`, `action.advancetime.go:89-111`, `action.call.go:69-83`, `action.dispatch.go:73-89`, `executor.go:27-46` | `OptModel.v` |
| what a test logs: `test.go:85-117,159-178`, captions, error texts and reports | `LogModel.v` |
| texts of panics: `engine/internal/panicx/*.go`, descriptions in controllers and scopes, `engine/engine.go:205-211` | `PanicTextModel.v` |
| annotations: `test.go:136-158`, `test.go:190-197`, `compare.go`, `report.go:29-34` | `NoteModel.v`, and `TAnnotate`, `UAnnotate` of `TestModel.v` and `ActModel.v` |
| construction of engines: `engine/engine.go:32-64`, `engine/configurer.go`, `engine/engineoption.go` | `NewModel.v` |
| writing to writers that may fail: `report.go:102-177`, `fact/internal/logging/{icon,write}.go` | `WriterModel.v` |
| the engine and its controllers again, with observers that panic and handlers that recover panics of their scopes | `ObsModel.v` |
| location/location.go (String, OfCall, OfPanic, eachFrame) | `LocationModel.v` |

### Conformance of the model

The code cannot be run here, but its own tests say what it does.  `tools/gen_conform.py` reads
test tables of `/repo` (a small parser of the Go literals in them) and writes them to
`ConformTable.v` as data: actions, expectations, facts, and the texts the tests demand.
`ConformBase.v` rebuilds the applications of these tests and runs each case on the model;
`Example conform_X : forallb conforms cases_X = true` says that the model gives exactly the texts,
results and panics that the test file X of the repository demands.  These are tests of the model
on literals, not proofs of properties; they support the trusted step from code to model.
`ConformEngine.v` does the same by hand for the tests of the four controllers and their scopes
(`engine/internal/*/{controller,scope}_test.go`) and of the engine,
`ConformTest.v` for those of `Test`, its options and its actions, and `ConformMisc.v` for those of
locations, panics, envelopes, `Run()`, log lines, diffs and comparisons: each `Example` cites the
test it transcribes.

## 4. What is not modelled

* `message`, `configkit` and `dogma` (dependencies): an application is a list
  of handlers with the consumed and produced message types; their validation
  (unique names, unique command routes, kinds of routes) is a well-formedness
  hypothesis where it is needed.
* User methods that are given as pure functions: `New()` (which returns a root or nil and does not
  panic), `RouteCommandToInstance()`, `ApplyEvent()`, `Validate()`, `MessageDescription()` and
  comparators.  They may panic where the model's types say so (`PVal`).  All other handler methods,
  observers, interceptors and reset functions are arbitrary programs over the user's world.
* Reflection-based rendering (`dapper`), the diff algorithm (`diffmatchpatch`) and
  `DefaultMessageComparator`: arbitrary functions.  Errors of writers, except in `WriterModel.v`.
* How the Go runtime produces stacks: a stack is given as a list of program
  counters with their frames.
* Call stacks are lists of frames
  with program counters; how the runtime computes them (and inlining) is not modelled.
* In `PredProtoModel.v`: `Caption()`, the `PredicateScope`, the texts of reports, `Predicate()`
  returning `(nil, nil)`, `Report()` returning nil.
* In `ObsModel.v`: observers that change roots through the pointers in facts, engine resetters
  that call the engine, and the remaining steps of the goroutine that compacts a projection if
  HandleEvent panics.  Histories go on after panics that end the program, too, which only
  adds histories.
* In all models other than `ObsModel.v`: observers that panic.
* In `MemModel.v`: user code that keeps a root beyond the call it was given it for and changes
  it during a later operation (C100 covers changes between operations), envelopes being changed through their pointers (nothing in the repository does), and
  garbage collection.  All other models treat slices and roots as values, which C89 justifies for the
  engine.
* In `LogModel.v`: the texts of errors and captions of the user and of other packages are parameters
  (`Texts`); `Log()`, `Logf()` and `Fatal()` of the `TestingT` are given as the texts they are called with.
* In `NoteModel.v`: dapper, which is given the annotators, `proto.Equal` and `reflect.DeepEqual`
  are parameters.
* In `OptModel.v`: the engine (only the options it is called with are shown), interceptors, and user
  code that calls `Bind()` and `Unbind()`.
* In `FrontModel.v`: expectations made by the factory of `ToRepeatedly()` are given as values;
  user-defined captions, descriptions and `Validate()` methods that panic; slices of children
  that are changed after the call.
* In `ActModel.v`: binding the executor to an engine other than the test's, use of an
  `ActionScope` by goroutines other than the action's, and replacing fields of the scope.
* In `SatConcModel.v`: goroutines that cleanup functions start and wait for (those the
  function starts may do anything at any time), `runtime.Goexit`, and what fmt prints for a
  String method that panics.
* In the models other than `ExecModel.v`: handlers, interceptors and observers that call
  the engine that called them (they deadlock or interleave; see C77's and C82's hypotheses).
  Observers that are notified before the engine's mutex is locked do not use an executor.
* `internal/testingmock`, `internal/x/...` test helpers and all `_test.go` files (but see
  "Conformance of the model").
* Real time: `time.Now()` is an oracle; monotonic clock readings are ignored; the
  scaling of `RunTimeScaled` is an arbitrary function.
* Histories (`EngineModel.v`) are sequential: an operation gets all of its message IDs after those
  of the operations before it.  With several goroutines, the ID of a dispatched message is allocated
  before the mutex is locked, so it can be smaller than IDs used by an operation that got the mutex
  earlier; it is still unique (C41), and nothing in the engine compares IDs other than for equality.
  C40 shows that calls are serialised "apart from the IDs"; theorems about histories, C101 included,
  speak of concurrent use with this reading.
* Memory model: data races are represented by interleavings of atomic steps.

## 5. Plan per property

| Id | Modelled as / proof |
|---|---|
| C01 | ID counter in the engine state + foreign-allocation oracle; trace invariant: IDs of fresh envelopes strictly increase; injectivity of decimal rendering |
| C02 | Invariant of the dispatch loop: every queued envelope has the root's correlation; facts inherit it |
| C03 | Invariant over histories: known-envelope set closed under causation; well-founded by counter |
| C04 | Trace predicate on production facts, by induction on handler programs |
| C05 | Abstract event store computed from the fact trace alone; simulation by induction on histories |
| C06, C07, C08 | Controller-level theorems by induction on the handler program; lifted to engine |
| C09 | Frame theorem for `Handle` of each controller and for the engine |
| C10 | Trace predicate over handler programs with recovery |
| C11 | Refuted by a witness; positive part for programs without Destroy |
| C12 | Invariant over histories, refutation for recovering handlers |
| C13 | Trace invariant: queued timeouts are due; pending timeouts only leave through Tick |
| C14 | Multiset accounting over histories (permutation) |
| C15 | State invariant over histories |
| C16 | Sortedness invariant; split lemma |
| C17 | Trace invariant with origin |
| C18 | Invariant for pending; witness for refutation |
| C19, C20, C21, C22 | Controller-level theorems, witness for C22's refutation |
| C23 | Positive theorem for Ticks that are neither cancelled nor panic; witness for refutation |
| C24 | Controller + engine theorem |
| C25 | Controller theorem + history theorem |
| C26, C28 | Two-thread interleaving semantics with schedule oracle |
| C27 | Facts of the compacting goroutine are its log messages, for every schedule; witness schedule against the unconditional promise |
| C29, C42 | State after Reset equals the initial one except for projections, and bisimulation of all later operations for applications without projections; witness |
| C30 | Invariant relating the user world of a projection (its calls) to the facts since the last Reset, for every history; witness against projections whose state outlives Reset |
| C31 | Queue-trace theorem: list of DispatchBegun = prefix of initial ++ produced |
| C32 | Trace theorem per message |
| C33 | Independent precedence spec |
| C34, C35 | Error accumulation theorem; cancelled runs compared with uncancelled ones |
| C36 | Grammar as inductive predicate independent of the model |
| C37 | Measure on acyclic type graph; diverging example |
| C38 | Direct |
| C39 | Observer group semantics |
| C40, C41, C77 | Interleaving semantics of goroutines with mutex and atomic counter: invariants over all schedules, serialisation by commuting steps, progress and a decreasing measure; witness schedule for the refutation in C41 |
| C43 | Permutation theorem |
| C44, C74 | Every panic of every call site is classified; which can leave the engine, over histories |
| C45-C51 | Expectation tree semantics vs. declarative spec over fact lists |
| C52, C53 | Induction on SatisfyT programs; event traces compared with a declarative account; witnesses |
| C54-C59, C75, C76 | Test programs (mutual induction over programs and actions) whose engine operations are those of the engine model; simulation of a test by an engine history |
| C60, C61, C72 | Report trees and rendering; lines of the text vs. an inductive layout |
| C62-C64 | Tracker folds vs. declarative counts; witness for ticks (C63) |
| C65, C66 | Logger model vs. independent symbols and layout |
| C67, C68 | Text rewriting as functions on character lists vs. simultaneous rewriting relations and an independent vocabulary |
| C69, C73 | Rendering vs. declarative description of paths and function names; stacks as lists of frames; witness for depth |
| C70 | Loop with oracle, as a sequence of ticks |
| C71 | Heap-level machine of the buffer; linearisation points as an invariant over all schedules |
| C78 | History invariant: IDs of dispatched, pending and queued messages are distinct |
| C79 | End to end: C13, C14 and C23 carried over to tests (C76) with the time of operations (C55) and enablement (C56); a fold over the facts of the tick for the last part |
| C80 | Calls carry their stack in the SatisfyT programs; induction on programs shows every call is made on top of Done or close; induction on findFrame's loop; witnesses for the limits |
| C81 | Induction on test programs (the comparator is never changed); case analysis of the actions |
| C82 | Interleavings of atomic steps with a writer-preferring RWMutex and the engines' mutexes; invariants on reader count, writer and call stacks; well-founded order on goroutines |
| C83 | A reader of the output that recovers which character was equal, inserted or deleted; induction on the pieces |
| C84 | Interleavings of steps (lock, each write, unlock, reads without the lock); invariant that the state is that of the calls made; phase invariant of the goroutine of Done; determinism for a single goroutine; witness schedules for the refutations |
| C85 | Interaction-tree action, predicates as state transformers with abrupt ends; the trace splits into Predicate/Notify/Done/Ok/Report parts; structural induction over the tree for each part (PredProto*.v). |
| C86 | A monadic version of the engine in which each notification may panic (ObsModel.v); simulation with the facts that took effect; Hoare-style triples for handlers; refinement of the original model for observers that do nothing; witness runs for the refutations |
| C87 | User-defined actions as programs over the whole ActionScope (ActModel.v); every event is a step of the test's state (scan), states are read off events; simulation of TestModel's actions by such programs; witness runs for the refutations |
| C88 | Expressions as a syntax tree evaluated as Go does (FrontModel.v); induction over expressions; an independent reading of expressions (FrontSpec.v) is compared with the meaning of the expectation built |
| C89 | Memory as arrays of optional envelopes and root objects, slices as windows, append() with an arbitrary growth function. Simulation relation: slices represent the lists of EngineModel.v, live slices occupy disjoint cells, all below the allocation mark; each controller function is shown to keep the relation and to write only to cells it owns or to new ones. |
| C90 | Slices as windows on arrays with an arbitrary growth function; user code as programs that append, assign, keep and use slices on arrays they can reach. Invariant: the test's own array is never reachable by user code and holds the options in order; each action's slice is on an array that is new. |
| C91 | LogModel gives the text logged for each event of ActModel: headings, fact lines (LoggerModel), reports (ReportModel) and errors. LogSpec says what may be logged after an action ended. Proved by inversion of the steps of an Expect() and by induction over the events of a test; that the fact logger is attached once follows from the invariant of the options of a test. |
| C92 | InflectModel's substitution, in the simultaneous form proved equal to it for C68, is pushed through prefix ++ name ++ suffix: no key of a table matches across either boundary. That is decided by computation for each of the fixed texts and proved for all names. |
| C93 | Texts of panic values in `PanicTextModel.v`; from C44, using that handlers whose panics are closed under those of their scopes raise only such values. |
| C94 | The reports of ExpectModel; induction on the lists of children, which are counted by an inductive relation that does not mention predicates (HeadSpec.v). |
| C95 | | C95 | `StorySpec.v`: scripts of methods (no engine), facts told by each call, handlings, stories. Induction over the interaction trees of each kind of method (both trees at once for HandleEvent with Compact), then over handlers, queue and tick; uses the invariant of `PanicProof.v` that stored events and timeouts belong to their handler. | |
| C96 | Annotate() is an operation of test programs and of user actions (TAnnotate, UAnnotate); NoteModel.v has the annotators of Expect(). NoteSpec.v says which values an annotation is about and removes the calls from a program; proved by induction over test programs (NonNote.v) |
| C97 | NewModel.v has the options and the visitor that fills the engine's maps; NewSpec.v says what the options mean; invariants of the visitor's fold; congruence of all operations in the controllers and routes for the order |
| C98 | WriterModel.v writes reports and log lines call by call, through layers of counting and indenting writers, to a sink that may fail; refinement of the texts of ReportModel.v and LoggerModel.v by a program logic for code that uses package must (WriterProof.v) |
| C99 | ObsModel.v with a list of functions that may panic; called_in_order is a separate relation saying which are called; equality of runs by induction over operations, handlers and queues |
| C100 | MemModel.v with steps of user code between operations; the refinement relation of C89 is kept by such steps |
| C101 | ShareModel.v: the loop of RunTimeScaled() with operations of others before each tick; shown to be a history, so the process invariants of ProcSpec apply; the infinite run is a function from iterations, and liveness follows from the first tick at or after the timeout's time |
| C102 | Relational: DisableSpec says what the application, options, operations, facts and states look like without the handler; simulation between the two engines, by induction over the operations, the queue and the handlers, with the invariant that what is kept for other handlers never refers to the disabled one. |
| C103 | Relational: WallSpec changes every reading of the real clock; the engine ignores it once an option sets the time (induction over programs, handlers and the queue), and every operation of a test has such an option (mutual induction over test code and actions, with the invariant that bound executors carry a time). |
| C104 | Relational: LookSpec replaces Expect by Prepare; the engine ignores which observers there are (induction over the queue and the handlers); mutual induction over test code and actions with two modes: in step, or stopped by a failed expectation while the other test goes on. |
| C105 | Relational: ShufSpec changes the order of iteration over names; runs of options that enable (or disable) several handlers commute (induction over permutations); mutual induction over test code and actions. |
| C106 | Relational: PassSpec defines the interceptor; running it is running the executor (its program has one step); mutual induction over test code and actions with states that are equal but for that interceptor. |
| C107 | Two states alike but for one instance; simulation of handler, loop and tick by induction, parameterised by how the timeouts are related (IsoSpec, IsoProof, PropsIso). |
| C108 | Per-handler predicate nothing_due; shown by induction over the handlers of a Tick and over the dispatch loop (IdleSpec, IdleProof, PropsIdle); that an idle Tick leaves no trace, from an equation for every function of the engine saying that only the behaviour of contexts, lock and scheduler can depend on how often they were consulted before (LaterProof); for tests, from the operations of the trace (IdleTestProof, PropsIdleTest). |

## 6. Print Assumptions

`Print Assumptions` says "Closed under the global context" for each of the 350
theorems below: they depend on no axiom at all.

Loading std++ also loads the standard library's `Coq.ssr.ssrunder`, whose module type
`Under_rel` declares seven parameters (`Under_rel`, `Under_rel_from_rel`,
`Under_relE`, `Over_rel`, `over_rel`, `over_rel_done`, `under_rel_done`); a checker of the
whole environment lists them as axioms of the library.  No theorem uses them.

| File | Theorems |
|---|---|
| `PropsAct.v` | `C87_builtin`, `C87_history`, `C87_options`, `C87_configured`, `C87_executor`, `C87_executed`, `C87_intercepted`, `C87_state`, `C87_nested`, `C87_expect`, `C87_prepare`, `C87_clock_refuted`, `C87_bound_refuted` |
| `PropsAggregate.v` | `C05_root_is_replay`, `C05_root_given_to_handler`, `C05_engine_keeps_recorded_events`, `C06_commands_are_atomic`, `C06_panic_changes_nothing`, `C07_direct_mutation_is_lost`, `C08_effect_of_one_command`, `C08_destroy_discards_history`, `C08_record_keeps_history`, `C11_in_command_root`, `C12_instances_have_events`, `C11_refuted`, `C12_recovering_refuted` |
| `PropsConc.v` | `C40_mutual_exclusion`, `C40_serialised`, `C41_ids_are_distinct`, `C41_refuted`, `C71_linearizable`, `C71_results_are_prefixes`, `C71_results_grow`, `C71_nothing_is_missed`, `C77_calls_end` |
| `PropsDelivery.v` | `C78_dispatched_once`, `C78_engaged_once`, `C78_projections_engaged_once`, `C30_every_event_is_given_once` |
| `PropsDiff.v` | `C83_diff_is_unambiguous`, `C83_unmarked`, `C83_markers_refuted` |
| `PropsDisable.v` | `C102_disabled_is_absent`, `C102_never_enabled_is_absent`, `C102_same_results`, `C102_without_other_consumer_refuted` |
| `PropsEngine.v` | `C09_instances_are_isolated`, `C09_ticks_are_isolated`, `C24_integration_events_are_dispatched`, `C31_fifo`, `C32_offered_to_the_consumers`, `C33_enablement`, `C34_errors_are_collected`, `C35_cancellation_truncates`, `C35_no_spurious_cancellation`, `C35_no_further_message`, `C36_facts_are_bracketed`, `C38_rejected_dispatch`, `C38_rejected_tick`, `C39_observers_see_the_same`, `C42_reset`, `C43_map_order_is_irrelevant` |
| `PropsEnvelope.v` | `C01_message_ids_unique`, `C02_correlation_identifies_root`, `C03_causation_tree`, `C04_stamps`, `C04_scheduled_for`, `C10_only_declared_and_valid`, `C10_scope_calls_panic`, `C13_timeouts_not_early`, `C17_timeouts_return_to_origin`, `C17_ignored_without_effect` |
| `PropsExec.v` | `C82_in_progress`, `C82_outcome`, `C82_then`, `C82_then_event`, `C82_call`, `C82_no_deadlock`, `C82_finite`, `C82_interceptor_executes_refuted`, `C82_interceptor_replaces_refuted`, `C82_handler_executes_refuted` |
| `PropsExpect.v` | `C45_message`, `C46_type`, `C47_match`, `C47_match_any`, `C48_only`, `C48_only_any`, `C49_verdict`, `C49_composite`, `C49_not`, `C49_repeat`, `C49_constructors`, `C49_not_none`, `C49_repeat_all`, `C49_single`, `C50_rejected`, `C50_reason`, `C51_stable`, `C60_reports`, `C60_root`, `C60_children`, `C61_repeat`, `C62_explanation`, `C62_suggestions`, `C62_similar`, `C64_failures`, `C64_counts`, `C63_dispatch`, `C63_refuted` |
| `PropsFront.v` | `C88_expectation_panics`, `C88_expectation_means`, `C88_single`, `C88_action_panics`, `C88_action_does`, `C88_names_function_refuted`, `C88_nil_rejected_refuted` |
| `PropsHead.v` | `C94_composite`, `C94_satisfy`, `C52_report`, `C94_leaf`, `C94_not`, `C94_repeat` |
| `PropsIdle.v` | `C108_an_idle_tick_does_nothing`, `C108_an_idle_tick_leaves_no_trace`, `C108_nothing_is_due_after_a_tick`, `C108_only_time_makes_things_due`, `C108_ticking_twice_is_ticking_once` |
| `PropsIdleTest.v` | `C108_advancing_to_the_same_time_does_nothing` |
| `PropsInflect.v` | `C67_order_does_not_matter`, `C68_no_placeholder_remains`, `C68_no_bad_phrase_remains`, `C68_other_text_is_unchanged`, `C68_idempotent`, `C68_result` |
| `PropsIso.v` | `C107_dispatch_depends_on_the_instances_it_names`, `C107_contents_are_seen_only_by_naming` |
| `PropsLocation.v` | `C69_file_and_line`, `C69_without_file`, `C69_function_iff`, `C73_location_of_panic`, `C73_refuted`, `C73_location_of_call` |
| `PropsLog.v` | `C91_expect`, `C91_prepare`, `C91_verdict`, `C91_facts`, `C91_captions`, `C91_verdict_refuted`, `C91_facts_refuted` |
| `PropsLogger.v` | `C65_deterministic`, `C65_text`, `C66_layout`, `C66_ids`, `C66_line`, `C66_silent` |
| `PropsLook.v` | `C39_observers_change_nothing`, `C104_expectations_only_look`, `C104_met_expectations_change_nothing`, `C104_other_expectations`, `C104_facts`, `C104_without_stopping_refuted`, `C104_panicking_refuted` |
| `PropsMeddle.v` | `C100_aggregate_roots`, `C100_process_roots`, `C100_histories`, `C100_all_roots_refuted` |
| `PropsMem.v` | `C89_as_values`, `C89_growth`, `C89_no_nil`, `C89_roots_kept`, `C89_process_roots_kept_refuted` |
| `PropsNew.v` | `C97_new`, `C97_nil`, `C97_same_engine`, `C97_order` |
| `PropsNote.v` | `C96_rendered`, `C96_harmless` |
| `PropsObs.v` | `C86_aggregate_events`, `C86_aggregate_loads`, `C86_process_state`, `C86_process_loads`, `C86_failed_aggregate`, `C86_failed_process`, `C86_unique_ids`, `C86_compaction_interval`, `C86_engine_usable`, `C86_observers_in_order`, `C86_first_observer`, `C86_all_told_unless_panic`, `C86_panic_propagates`, `C86_returns_all_told`, `C86_panic_ends_operation`, `C86_quiet_observers`, `C86_due_timeouts_delivered_refuted`, `C86_kept_events_delivered_refuted`, `C86_panic_always_propagates_refuted` |
| `PropsOpt.v` | `C90_given`, `C90_outside`, `C90_advance_keeps`, `C90_appended_kept_refuted`, `C90_composed_time_refuted` |
| `PropsPanic.v` | `C44_panics`, `C44_propagates`, `C44_never_raw`, `C74_unreachable` |
| `PropsPanicText.v` | `C93_panics_are_explained` |
| `PropsPass.v` | `C106_pass_through_test`, `C106_pass_through_call`, `C106_over_another_refuted` |
| `PropsPredProto.v` | `C85_life`, `C85_done`, `C85_rejected`, `C85_notified`, `C85_verdict`, `C85_builtin`, `C85_leak_refuted`, `C85_done_panic_refuted`, `C85_notify_panic_refuted` |
| `PropsProcess.v` | `C14_every_timeout_is_accounted_for`, `C14_taken_timeouts_are_delivered`, `C14_timeouts_are_delivered_once`, `C15_pending_timeouts_belong_to_live_instances`, `C16_chronological_order`, `C16_tick_takes_the_due_timeouts`, `C18_ending_discards_timeouts`, `C19_failed_handling_has_no_effect`, `C20_ending_and_unending`, `C20_next_event_begins_anew`, `C21_event_routing`, `C22_root_after_handling`, `C22_failure_without_mutation`, `C23_due_timeouts_are_dispatched`, `C18_refuted`, `C22_refuted`, `C23_refuted` |
| `PropsProjection.v` | `C25_compaction_interval`, `C25_compactions_are_apart`, `C26_protocol`, `C27_facts_of_the_other_goroutine`, `C28_compaction_is_bracketed`, `C29_reset_state`, `C29_reset_without_projections`, `C37_dispatch_terminates`, `C37_tick_terminates`, `C37_cyclic_application_diverges`, `C27_refuted`, `C29_refuted`, `C30_refuted` |
| `PropsReport.v` | `C72_layout`, `C72_trimmed`, `C72_titles`, `C72_empty_sections` |
| `PropsReset.v` | `C99_reset`, `C99_no_other_effect`, `C99_called` |
| `PropsRun.v` | `C70_is_a_sequence_of_ticks`, `C70_alternates`, `C70_time`, `C70_until_failure` |
| `PropsSatConc.v` | `C84_calls`, `C84_queries`, `C84_cleanup`, `C84_ok`, `C84_report`, `C84_abort`, `C84_no_deadlock`, `C84_finite`, `C84_alone`, `C84_left_behind_refuted`, `C84_late_cleanup_refuted`, `C84_string_method_refuted`, `C84_abort_elsewhere_refuted` |
| `PropsSatisfy.v` | `C52_ok`, `C52_queries`, `C52_abort`, `C52_explanation`, `C52_log`, `C53_cleanup`, `C52_panic_propagates`, `C80_function`, `C80_cleanup`, `C53_refuted`, `C52_panic_refuted`, `C80_cleanup_refuted`, `C80_depth_refuted` |
| `PropsShare.v` | `C101_alone`, `C101_is_a_history`, `C101_due_timeouts_are_dispatched`, `C101_none_overdue`, `C101_no_timeout_waits_forever` |
| `PropsShuf.v` | `C105_order_of_names`, `C105_facts` |
| `PropsStory.v` | `C95_story` |
| `PropsTest.v` | `C55_innermost`, `C54_monotone`, `C54_reverse`, `C54_by_duration`, `C55_dispatch`, `C55_tick`, `C55_advance`, `C56_engagement`, `C56_reported`, `C56_disabled`, `C56_named`, `C56_matching`, `C57_usable`, `C57_outside`, `C57_panic`, `C57_restored`, `C57_interceptor`, `C58_usable`, `C58_after_call`, `C58_refuted`, `C59_expect`, `C59_observers`, `C59_every_expect`, `C59_failed`, `C50_not_performed`, `C75_prepare`, `C76_history` |
| `PropsTestScope.v` | `C81_scope`, `C81_unrecognised`, `C81_dispatch` |
| `PropsTestTime.v` | `C79_not_early`, `C79_delivered`, `C79_none_due` |
| `PropsVerbatim.v` | `C92_names`, `C92_captions`, `C92_dispatch`, `C92_criteria`, `C92_similar`, `C92_errors`, `C92_dispatch_refuted`, `C92_untouched_refuted` |
| `PropsWall.v` | `C103_tests_do_not_depend_on_real_time`, `C103_facts`, `C103_operations`, `C103_without_start_time_refuted`, `C103_operations_without_time_refuted` |
| `PropsWords.v` | `C69_decimal`, `C61_numbers`, `C69_numeral_unique`, `C62_relevant`, `C62_type_words`, `C64_entry`, `C48_parameter` |
| `PropsWriter.v` | `C98_report`, `C98_line`, `C98_complete` |
