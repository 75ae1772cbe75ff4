{
 "claims": [
  {
   "property": "C01",
   "status": "proved",
   "theorems": [
    "C01_message_ids_unique"
   ],
   "note": ""
  },
  {
   "property": "C02",
   "status": "proved",
   "theorems": [
    "C02_correlation_identifies_root"
   ],
   "note": ""
  },
  {
   "property": "C03",
   "status": "proved",
   "theorems": [
    "C03_causation_tree"
   ],
   "note": ""
  },
  {
   "property": "C04",
   "status": "proved",
   "theorems": [
    "C04_stamps",
    "C04_scheduled_for"
   ],
   "note": ""
  },
  {
   "property": "C05",
   "status": "proved",
   "theorems": [
    "C05_root_is_replay",
    "C05_root_given_to_handler",
    "C05_engine_keeps_recorded_events"
   ],
   "note": ""
  },
  {
   "property": "C06",
   "status": "proved",
   "theorems": [
    "C06_commands_are_atomic",
    "C06_panic_changes_nothing"
   ],
   "note": ""
  },
  {
   "property": "C07",
   "status": "proved",
   "theorems": [
    "C07_direct_mutation_is_lost"
   ],
   "note": "C08_effect_of_one_command gives the general transition"
  },
  {
   "property": "C08",
   "status": "proved",
   "theorems": [
    "C08_effect_of_one_command",
    "C08_destroy_discards_history",
    "C08_record_keeps_history"
   ],
   "note": ""
  },
  {
   "property": "C09",
   "status": "proved",
   "theorems": [
    "C09_instances_are_isolated",
    "C09_ticks_are_isolated"
   ],
   "note": ""
  },
  {
   "property": "C10",
   "status": "proved",
   "theorems": [
    "C10_only_declared_and_valid",
    "C10_scope_calls_panic"
   ],
   "note": ""
  },
  {
   "property": "C11",
   "status": "proved",
   "theorems": [
    "C11_in_command_root",
    "C11_refuted"
   ],
   "note": "for handlers that neither recover from nor bypass RecordEvent; agreement with the history after Destroy is refuted"
  },
  {
   "property": "C12",
   "status": "proved",
   "theorems": [
    "C12_instances_have_events",
    "C12_recovering_refuted"
   ],
   "note": ""
  },
  {
   "property": "C13",
   "status": "proved",
   "theorems": [
    "C13_timeouts_not_early"
   ],
   "note": ""
  },
  {
   "property": "C14",
   "status": "proved",
   "theorems": [
    "C14_every_timeout_is_accounted_for",
    "C14_taken_timeouts_are_delivered",
    "C14_timeouts_are_delivered_once"
   ],
   "note": ""
  },
  {
   "property": "C15",
   "status": "proved",
   "theorems": [
    "C15_pending_timeouts_belong_to_live_instances"
   ],
   "note": ""
  },
  {
   "property": "C16",
   "status": "proved",
   "theorems": [
    "C16_chronological_order",
    "C16_tick_takes_the_due_timeouts"
   ],
   "note": ""
  },
  {
   "property": "C17",
   "status": "proved",
   "theorems": [
    "C17_timeouts_return_to_origin",
    "C17_ignored_without_effect"
   ],
   "note": ""
  },
  {
   "property": "C18",
   "status": "proved",
   "theorems": [
    "C18_ending_discards_timeouts",
    "C18_refuted"
   ],
   "note": "the stronger claim is refuted"
  },
  {
   "property": "C19",
   "status": "proved",
   "theorems": [
    "C19_failed_handling_has_no_effect"
   ],
   "note": ""
  },
  {
   "property": "C20",
   "status": "proved",
   "theorems": [
    "C20_ending_and_unending",
    "C20_next_event_begins_anew"
   ],
   "note": ""
  },
  {
   "property": "C21",
   "status": "proved",
   "theorems": [
    "C21_event_routing",
    "C20_next_event_begins_anew"
   ],
   "note": ""
  },
  {
   "property": "C22",
   "status": "proved",
   "theorems": [
    "C22_root_after_handling",
    "C22_failure_without_mutation",
    "C22_refuted"
   ],
   "note": "the stronger claim is refuted"
  },
  {
   "property": "C23",
   "status": "proved",
   "theorems": [
    "C23_due_timeouts_are_dispatched",
    "C23_refuted"
   ],
   "note": "the stronger claim is refuted"
  },
  {
   "property": "C24",
   "status": "proved",
   "theorems": [
    "C24_integration_events_are_dispatched",
    "C34_errors_are_collected"
   ],
   "note": ""
  },
  {
   "property": "C25",
   "status": "proved",
   "theorems": [
    "C25_compaction_interval",
    "C25_compactions_are_apart"
   ],
   "note": ""
  },
  {
   "property": "C26",
   "status": "proved",
   "theorems": [
    "C26_protocol"
   ],
   "note": ""
  },
  {
   "property": "C27",
   "status": "proved",
   "theorems": [
    "C27_facts_of_the_other_goroutine",
    "C27_refuted"
   ],
   "note": "the unconditional promise is refuted"
  },
  {
   "property": "C28",
   "status": "proved",
   "theorems": [
    "C28_compaction_is_bracketed"
   ],
   "note": ""
  },
  {
   "property": "C29",
   "status": "proved",
   "theorems": [
    "C29_reset_state",
    "C29_reset_without_projections",
    "C29_refuted"
   ],
   "note": "the unconditional claim is refuted"
  },
  {
   "property": "C30",
   "status": "proved",
   "theorems": [
    "C30_every_event_is_given_once",
    "C26_protocol",
    "C30_refuted"
   ],
   "note": "C30_refuted: not for a projection whose state outlives Reset"
  },
  {
   "property": "C31",
   "status": "proved",
   "theorems": [
    "C31_fifo"
   ],
   "note": ""
  },
  {
   "property": "C32",
   "status": "proved",
   "theorems": [
    "C32_offered_to_the_consumers",
    "C33_enablement"
   ],
   "note": ""
  },
  {
   "property": "C33",
   "status": "proved",
   "theorems": [
    "C33_enablement"
   ],
   "note": ""
  },
  {
   "property": "C34",
   "status": "proved",
   "theorems": [
    "C34_errors_are_collected",
    "C31_fifo",
    "C32_offered_to_the_consumers"
   ],
   "note": ""
  },
  {
   "property": "C35",
   "status": "proved",
   "theorems": [
    "C35_cancellation_truncates",
    "C35_no_spurious_cancellation",
    "C35_no_further_message",
    "C32_offered_to_the_consumers"
   ],
   "note": ""
  },
  {
   "property": "C36",
   "status": "proved",
   "theorems": [
    "C36_facts_are_bracketed"
   ],
   "note": ""
  },
  {
   "property": "C37",
   "status": "proved",
   "theorems": [
    "C37_dispatch_terminates",
    "C37_tick_terminates",
    "C37_cyclic_application_diverges"
   ],
   "note": ""
  },
  {
   "property": "C38",
   "status": "proved",
   "theorems": [
    "C38_rejected_dispatch",
    "C38_rejected_tick"
   ],
   "note": ""
  },
  {
   "property": "C39",
   "status": "proved",
   "theorems": [
    "C39_observers_see_the_same",
    "C39_observers_change_nothing"
   ],
   "note": "Observers that panic: C86."
  },
  {
   "property": "C40",
   "status": "proved",
   "theorems": [
    "C40_mutual_exclusion",
    "C40_serialised"
   ],
   "note": ""
  },
  {
   "property": "C41",
   "status": "proved",
   "theorems": [
    "C41_ids_are_distinct",
    "C41_refuted"
   ],
   "note": "C41_refuted: the claim does not extend to a concurrent Reset"
  },
  {
   "property": "C42",
   "status": "proved",
   "theorems": [
    "C42_reset"
   ],
   "note": ""
  },
  {
   "property": "C43",
   "status": "proved",
   "theorems": [
    "C43_map_order_is_irrelevant"
   ],
   "note": ""
  },
  {
   "property": "C44",
   "status": "proved",
   "theorems": [
    "C44_panics",
    "C44_propagates",
    "C44_never_raw"
   ],
   "note": ""
  },
  {
   "property": "C45",
   "status": "proved",
   "theorems": [
    "C45_message"
   ],
   "note": ""
  },
  {
   "property": "C46",
   "status": "proved",
   "theorems": [
    "C46_type"
   ],
   "note": ""
  },
  {
   "property": "C47",
   "status": "proved",
   "theorems": [
    "C47_match",
    "C47_match_any"
   ],
   "note": ""
  },
  {
   "property": "C48",
   "status": "proved",
   "theorems": [
    "C48_only",
    "C48_only_any",
    "C48_parameter"
   ],
   "note": ""
  },
  {
   "property": "C49",
   "status": "proved",
   "theorems": [
    "C49_verdict",
    "C49_composite",
    "C49_not",
    "C49_repeat",
    "C49_not_none",
    "C49_repeat_all",
    "C49_single",
    "C49_constructors"
   ],
   "note": ""
  },
  {
   "property": "C50",
   "status": "proved",
   "theorems": [
    "C50_rejected",
    "C50_reason",
    "C50_not_performed"
   ],
   "note": ""
  },
  {
   "property": "C51",
   "status": "proved",
   "theorems": [
    "C51_stable"
   ],
   "note": ""
  },
  {
   "property": "C52",
   "status": "proved",
   "theorems": [
    "C52_ok",
    "C52_queries",
    "C52_abort",
    "C52_explanation",
    "C52_log",
    "C52_report",
    "C52_panic_propagates",
    "C52_panic_refuted"
   ],
   "note": "user functions as programs over the methods of SatisfyT; one goroutine"
  },
  {
   "property": "C53",
   "status": "proved",
   "theorems": [
    "C53_cleanup",
    "C53_refuted"
   ],
   "note": "complete shape of the events of Done(); the promise that all cleanup functions run is refuted"
  },
  {
   "property": "C54",
   "status": "proved",
   "theorems": [
    "C54_monotone",
    "C54_reverse",
    "C54_by_duration"
   ],
   "note": ""
  },
  {
   "property": "C55",
   "status": "proved",
   "theorems": [
    "C55_dispatch",
    "C55_tick",
    "C55_advance",
    "C55_innermost"
   ],
   "note": ""
  },
  {
   "property": "C56",
   "status": "proved",
   "theorems": [
    "C56_engagement",
    "C56_reported",
    "C56_disabled",
    "C56_named",
    "C56_matching"
   ],
   "note": ""
  },
  {
   "property": "C57",
   "status": "proved",
   "theorems": [
    "C57_usable",
    "C57_outside",
    "C57_panic",
    "C57_restored",
    "C57_interceptor"
   ],
   "note": ""
  },
  {
   "property": "C58",
   "status": "proved",
   "theorems": [
    "C58_usable",
    "C58_after_call",
    "C58_refuted"
   ],
   "note": "C58_refuted: the promise fails after a nested Call"
  },
  {
   "property": "C59",
   "status": "proved",
   "theorems": [
    "C59_expect",
    "C59_observers",
    "C59_every_expect",
    "C59_failed"
   ],
   "note": ""
  },
  {
   "property": "C60",
   "status": "proved",
   "theorems": [
    "C60_reports",
    "C60_root",
    "C60_children"
   ],
   "note": ""
  },
  {
   "property": "C61",
   "status": "proved",
   "theorems": [
    "C61_repeat",
    "C61_numbers"
   ],
   "note": ""
  },
  {
   "property": "C62",
   "status": "proved",
   "theorems": [
    "C62_explanation",
    "C62_suggestions",
    "C62_similar",
    "C62_relevant",
    "C62_type_words"
   ],
   "note": ""
  },
  {
   "property": "C63",
   "status": "proved",
   "theorems": [
    "C63_dispatch",
    "C63_refuted"
   ],
   "note": "holds of dispatch cycles; C63_refuted gives a tick for which it does not"
  },
  {
   "property": "C64",
   "status": "proved",
   "theorems": [
    "C64_failures",
    "C64_counts",
    "C64_entry"
   ],
   "note": ""
  },
  {
   "property": "C65",
   "status": "proved",
   "theorems": [
    "C65_deterministic",
    "C65_text"
   ],
   "note": ""
  },
  {
   "property": "C66",
   "status": "proved",
   "theorems": [
    "C66_layout",
    "C66_line",
    "C66_ids",
    "C66_silent"
   ],
   "note": ""
  },
  {
   "property": "C67",
   "status": "proved",
   "theorems": [
    "C67_order_does_not_matter"
   ],
   "note": ""
  },
  {
   "property": "C68",
   "status": "proved",
   "theorems": [
    "C68_no_placeholder_remains",
    "C68_no_bad_phrase_remains",
    "C68_other_text_is_unchanged",
    "C68_idempotent",
    "C68_result"
   ],
   "note": ""
  },
  {
   "property": "C69",
   "status": "proved",
   "theorems": [
    "C69_file_and_line",
    "C69_without_file",
    "C69_function_iff",
    "C69_decimal",
    "C69_numeral_unique"
   ],
   "note": ""
  },
  {
   "property": "C70",
   "status": "proved",
   "theorems": [
    "C70_is_a_sequence_of_ticks",
    "C70_alternates",
    "C70_time",
    "C70_until_failure"
   ],
   "note": "floating-point rounding of the scaling factor is not modelled: the scaling is an arbitrary function"
  },
  {
   "property": "C71",
   "status": "proved",
   "theorems": [
    "C71_linearizable",
    "C71_results_are_prefixes",
    "C71_results_grow",
    "C71_nothing_is_missed"
   ],
   "note": ""
  },
  {
   "property": "C72",
   "status": "proved",
   "theorems": [
    "C72_layout",
    "C72_trimmed",
    "C72_titles",
    "C72_empty_sections"
   ],
   "note": ""
  },
  {
   "property": "C73",
   "status": "proved",
   "theorems": [
    "C73_location_of_panic",
    "C73_refuted",
    "C73_location_of_call"
   ],
   "note": "holds of stacks whose panicking function is among the first eight program counters; C73_refuted gives a deeper stack for which the code reports nothing"
  },
  {
   "property": "C74",
   "status": "proved",
   "theorems": [
    "C74_unreachable"
   ],
   "note": ""
  },
  {
   "property": "C75",
   "status": "proved",
   "theorems": [
    "C75_prepare"
   ],
   "note": ""
  },
  {
   "property": "C76",
   "status": "proved",
   "theorems": [
    "C76_history"
   ],
   "note": ""
  },
  {
   "property": "C77",
   "status": "proved",
   "theorems": [
    "C77_calls_end"
   ],
   "note": ""
  },
  {
   "property": "C78",
   "status": "proved",
   "theorems": [
    "C78_dispatched_once",
    "C78_engaged_once",
    "C78_projections_engaged_once"
   ],
   "note": ""
  },
  {
   "property": "C79",
   "status": "proved",
   "theorems": [
    "C79_not_early",
    "C79_delivered",
    "C79_none_due"
   ],
   "note": ""
  },
  {
   "property": "C80",
   "status": "proved",
   "theorems": [
    "C80_function",
    "C80_cleanup",
    "C80_cleanup_refuted",
    "C80_depth_refuted"
   ],
   "note": "For calls at most 50 deep above Done; functions named like Done are excluded. The refutations show both limits are needed."
  },
  {
   "property": "C81",
   "status": "proved",
   "theorems": [
    "C81_scope",
    "C81_unrecognised",
    "C81_dispatch"
   ],
   "note": ""
  },
  {
   "property": "C82",
   "status": "proved",
   "theorems": [
    "C82_in_progress",
    "C82_outcome",
    "C82_then",
    "C82_then_event",
    "C82_call",
    "C82_no_deadlock",
    "C82_finite",
    "C82_interceptor_executes_refuted",
    "C82_interceptor_replaces_refuted",
    "C82_handler_executes_refuted"
   ],
   "note": ""
  },
  {
   "property": "C83",
   "status": "proved",
   "theorems": [
    "C83_diff_is_unambiguous",
    "C83_unmarked",
    "C83_markers_refuted"
   ],
   "note": "That the pieces given by diffmatchpatch.DiffMain spell both texts is a hypothesis (a dependency)."
  },
  {
   "property": "C84",
   "status": "proved",
   "theorems": [
    "C84_calls",
    "C84_queries",
    "C84_cleanup",
    "C84_ok",
    "C84_report",
    "C84_abort",
    "C84_no_deadlock",
    "C84_finite",
    "C84_alone",
    "C84_left_behind_refuted",
    "C84_late_cleanup_refuted",
    "C84_string_method_refuted",
    "C84_abort_elsewhere_refuted"
   ],
   "note": "The refuted theorems show what does not hold when goroutines outlive the function or format arguments with the *SatisfyT."
  },
  {
   "property": "C85",
   "status": "proved",
   "theorems": [
    "C85_life",
    "C85_done",
    "C85_rejected",
    "C85_notified",
    "C85_verdict",
    "C85_builtin",
    "C85_leak_refuted",
    "C85_done_panic_refuted",
    "C85_notify_panic_refuted"
   ],
   "note": "A second model of the composite expectations, over arbitrary predicates whose method calls are observed; C85_builtin relates it to the first one (ExpectModel.v). Predicate() returning (nil, nil) and Report() returning nil are left out."
  },
  {
   "property": "C86",
   "status": "proved",
   "theorems": [
    "C86_aggregate_events",
    "C86_aggregate_loads",
    "C86_process_state",
    "C86_process_loads",
    "C86_failed_aggregate",
    "C86_failed_process",
    "C86_unique_ids",
    "C86_compaction_interval",
    "C86_engine_usable",
    "C86_first_observer",
    "C86_all_told_unless_panic",
    "C86_observers_in_order",
    "C86_panic_propagates",
    "C86_returns_all_told",
    "C86_panic_ends_operation",
    "C86_quiet_observers",
    "C86_due_timeouts_delivered_refuted",
    "C86_kept_events_delivered_refuted",
    "C86_panic_always_propagates_refuted"
   ],
   "note": "Three refuted theorems state what is lost."
  },
  {
   "property": "C87",
   "status": "proved",
   "theorems": [
    "C87_builtin",
    "C87_history",
    "C87_options",
    "C87_configured",
    "C87_executor",
    "C87_executed",
    "C87_intercepted",
    "C87_state",
    "C87_nested",
    "C87_expect",
    "C87_prepare",
    "C87_clock_refuted",
    "C87_bound_refuted"
   ],
   "note": "Two refuted theorems: the clock can go back and the executor can stay bound under user-defined actions."
  },
  {
   "property": "C88",
   "status": "proved",
   "theorems": [
    "C88_expectation_panics",
    "C88_expectation_means",
    "C88_single",
    "C88_action_panics",
    "C88_action_does",
    "C88_names_function_refuted",
    "C88_nil_rejected_refuted"
   ],
   "note": "Two refuted theorems state the exceptions."
  },
  {
   "property": "C89",
   "status": "proved",
   "theorems": [
    "C89_as_values",
    "C89_growth",
    "C89_no_nil",
    "C89_roots_kept",
    "C89_process_roots_kept_refuted"
   ],
   "note": "Refinement between a model with arrays, capacities and root objects (MemModel.v) and EngineModel.v: each kept slice represents a list, slices that are kept never overlap, and nothing writes to a cell that someone else reads. The refuted variant covers process roots."
  },
  {
   "property": "C90",
   "status": "proved",
   "theorems": [
    "C90_given",
    "C90_outside",
    "C90_advance_keeps",
    "C90_appended_kept_refuted",
    "C90_composed_time_refuted"
   ],
   "note": "Memory-level model of the option slices (OptModel.v); user code is an arbitrary program over the arrays it can reach. The two refuted variants are the pitfalls for user-defined actions that perform AdvanceTime() with their own scope."
  },
  {
   "property": "C91",
   "status": "proved",
   "theorems": [
    "C91_expect",
    "C91_prepare",
    "C91_verdict",
    "C91_facts",
    "C91_captions",
    "C91_verdict_refuted",
    "C91_facts_refuted"
   ],
   "note": "The log is computed from the events of ActModel with the texts of LogModel. The two refuted theorems show what user-defined expectations and actions can do."
  },
  {
   "property": "C92",
   "status": "proved",
   "theorems": [
    "C92_names",
    "C92_captions",
    "C92_dispatch",
    "C92_criteria",
    "C92_similar",
    "C92_errors",
    "C92_dispatch_refuted",
    "C92_untouched_refuted"
   ],
   "note": "The tables of internal/inflect are those of InflectModel. fmt.Sprintf is concatenation."
  },
  {
   "property": "C93",
   "status": "proved",
   "theorems": [
    "C93_panics_are_explained"
   ],
   "note": "The text of a call rejected for an unknown handler name or for a timeout is not part of the claim. What fmt prints for the type of the implementation is a parameter."
  },
  {
   "property": "C94",
   "status": "proved",
   "theorems": [
    "C94_composite",
    "C94_satisfy",
    "C94_leaf",
    "C94_not",
    "C94_repeat"
   ],
   "note": ""
  },
  {
   "property": "C95",
   "status": "proved",
   "theorems": [
    "C95_story"
   ],
   "note": "StorySpec.v describes methods on their own (the calls they make) and, separately, the facts that tell calls; the theorem says that the facts of any operation of any history are such a story."
  },
  {
   "property": "C96",
   "status": "proved",
   "theorems": [
    "C96_rendered",
    "C96_harmless"
   ],
   "note": "How dapper renders values is a parameter of the model that is given the annotators; the application of the example of test_test.go:285-345 yields the lines stated there."
  },
  {
   "property": "C97",
   "status": "proved",
   "theorems": [
    "C97_new",
    "C97_nil",
    "C97_same_engine",
    "C97_order"
   ],
   "note": "C97_same_engine relates the engine that is built to the configuration (Config) that the model of the operations starts from."
  },
  {
   "property": "C98",
   "status": "proved",
   "theorems": [
    "C98_report",
    "C98_line",
    "C98_complete"
   ],
   "note": "The writers of dogmatiq/iago (count.Writer, Indenter) and package must are modelled as they are documented; C98_count_after_error shows the departure from io.WriterTo."
  },
  {
   "property": "C99",
   "status": "proved",
   "theorems": [
    "C99_reset",
    "C99_no_other_effect",
    "C99_called",
    "C86_engine_usable",
    "C86_aggregate_events",
    "C86_process_state",
    "C86_unique_ids"
   ],
   "note": "Functions that call the engine themselves (which deadlocks) are not modelled. The theorems of C86 hold for histories in which reset functions panic."
  },
  {
   "property": "C100",
   "status": "proved",
   "theorems": [
    "C100_aggregate_roots",
    "C100_process_roots",
    "C100_histories",
    "C100_all_roots_refuted"
   ],
   "note": "Changes made while an operation is running, by observers or by other goroutines, are not covered. The refuted theorem shows that process roots must be excluded from the first claim."
  },
  {
   "property": "C101",
   "status": "proved",
   "theorems": [
    "C101_alone",
    "C101_is_a_history",
    "C101_due_timeouts_are_dispatched",
    "C101_none_overdue",
    "C101_no_timeout_waits_forever"
   ],
   "note": "The other goroutines' operations are given in the order in which they get the engine's mutex (C40). Two assumptions of the last theorem are the user's business: that no tick of the run returns an error or panics, and that the time of its ticks grows without bound (a positive scale and a wall clock)."
  },
  {
   "property": "C102",
   "status": "proved",
   "theorems": [
    "C102_disabled_is_absent",
    "C102_never_enabled_is_absent",
    "C102_same_results",
    "C102_without_other_consumer_refuted"
   ],
   "note": "The last theorem shows why the condition on messages that only the disabled handler consumes is needed."
  },
  {
   "property": "C103",
   "status": "proved",
   "theorems": [
    "C103_tests_do_not_depend_on_real_time",
    "C103_facts",
    "C103_operations",
    "C103_without_start_time_refuted",
    "C103_operations_without_time_refuted"
   ],
   "note": "Relational: two runs whose readings of the real clock are unrelated. The refuted theorems show that the two conditions (a start time, WithCurrentTime) are needed."
  },
  {
   "property": "C104",
   "status": "proved",
   "theorems": [
    "C104_expectations_only_look",
    "C104_met_expectations_change_nothing",
    "C104_other_expectations",
    "C104_facts",
    "C104_without_stopping_refuted",
    "C104_panicking_refuted"
   ],
   "note": "Relational: the test and its transform by unexpecting. The refuted theorems show that both conditions are needed."
  },
  {
   "property": "C105",
   "status": "proved",
   "theorems": [
    "C105_order_of_names",
    "C105_facts"
   ],
   "note": "Relational: two runs whose orders of iteration are unrelated permutations."
  },
  {
   "property": "C106",
   "status": "proved",
   "theorems": [
    "C106_pass_through_test",
    "C106_pass_through_call",
    "C106_over_another_refuted"
   ],
   "note": "Relational. The refuted theorem shows that in a test with another interceptor the interceptor of a Call() does make a difference: it replaces the other one."
  },
  {
   "property": "C107",
   "status": "proved",
   "theorems": [
    "C107_dispatch_depends_on_the_instances_it_names",
    "C107_contents_are_seen_only_by_naming"
   ],
   "note": "The converse direction of C09 (which says what an operation leaves alone). A panic is excluded because a panic of ApplyEvent while an aggregate is replayed is not preceded by a fact about the instance."
  },
  {
   "property": "C108",
   "status": "proved",
   "theorems": [
    "C108_an_idle_tick_does_nothing",
    "C108_an_idle_tick_leaves_no_trace",
    "C108_nothing_is_due_after_a_tick",
    "C108_only_time_makes_things_due",
    "C108_ticking_twice_is_ticking_once",
    "C108_advancing_to_the_same_time_does_nothing"
   ],
   "note": "A cancelled idle Tick changes nothing either, but returns early. In a test, what is done in between must not be performed at an earlier time (an action nested in a Call may be performed at the time at which the Call began) and the second AdvanceTime must not engage more handlers than the first."
  }
 ]
}