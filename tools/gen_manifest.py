#!/usr/bin/env python3
"""Writes MANIFEST.json from the table below."""
import json, os, re, sys
root = os.path.join(os.path.dirname(os.path.abspath(__file__)), '..')

CLAIMS = {
    'C01': ('proved', ['C01_message_ids_unique'], ''),
    'C02': ('proved', ['C02_correlation_identifies_root'], ''),
    'C03': ('proved', ['C03_causation_tree'], ''),
    'C04': ('proved', ['C04_stamps', 'C04_scheduled_for'], ''),
    'C05': ('proved', ['C05_root_is_replay', 'C05_root_given_to_handler', 'C05_engine_keeps_recorded_events'], ''),
    'C06': ('proved', ['C06_commands_are_atomic', 'C06_panic_changes_nothing'], ''),
    'C07': ('proved', ['C07_direct_mutation_is_lost'], 'C08_effect_of_one_command gives the general transition'),
    'C08': ('proved', ['C08_effect_of_one_command', 'C08_destroy_discards_history', 'C08_record_keeps_history'], ''),
    'C11': ('proved', ['C11_in_command_root', 'C11_refuted'], 'for handlers that neither recover from nor bypass RecordEvent; agreement with the history after Destroy is refuted'),
    'C12': ('proved', ['C12_instances_have_events', 'C12_recovering_refuted'], ''),
    'C10': ('proved', ['C10_only_declared_and_valid', 'C10_scope_calls_panic'], ''),
    'C13': ('proved', ['C13_timeouts_not_early'], ''),
    'C17': ('proved', ['C17_timeouts_return_to_origin', 'C17_ignored_without_effect'], ''),
    'C14': ('proved', ['C14_every_timeout_is_accounted_for', 'C14_taken_timeouts_are_delivered', 'C14_timeouts_are_delivered_once'], ''),
    'C15': ('proved', ['C15_pending_timeouts_belong_to_live_instances'], ''),
    'C16': ('proved', ['C16_chronological_order', 'C16_tick_takes_the_due_timeouts'], ''),
    'C18': ('proved', ['C18_ending_discards_timeouts', 'C18_refuted'], 'the stronger claim is refuted'),
    'C19': ('proved', ['C19_failed_handling_has_no_effect'], ''),
    'C20': ('proved', ['C20_ending_and_unending', 'C20_next_event_begins_anew'], ''),
    'C21': ('proved', ['C21_event_routing', 'C20_next_event_begins_anew'], ''),
    'C22': ('proved', ['C22_root_after_handling', 'C22_failure_without_mutation', 'C22_refuted'], 'the stronger claim is refuted'),
    'C23': ('proved', ['C23_due_timeouts_are_dispatched', 'C23_refuted'], 'the stronger claim is refuted'),
    'C09': ('proved', ['C09_instances_are_isolated', 'C09_ticks_are_isolated'], ''),
    'C24': ('proved', ['C24_integration_events_are_dispatched', 'C34_errors_are_collected'], ''),
    'C31': ('proved', ['C31_fifo'], ''),
    'C32': ('proved', ['C32_offered_to_the_consumers', 'C33_enablement'], ''),
    'C33': ('proved', ['C33_enablement'], ''),
    'C34': ('proved', ['C34_errors_are_collected', 'C31_fifo', 'C32_offered_to_the_consumers'], ''),
    'C35': ('proved', ['C35_cancellation_truncates', 'C35_no_spurious_cancellation', 'C35_no_further_message', 'C32_offered_to_the_consumers'], ''),
    'C36': ('proved', ['C36_facts_are_bracketed'], ''),
    'C38': ('proved', ['C38_rejected_dispatch', 'C38_rejected_tick'], ''),
    'C39': ('proved', ['C39_observers_see_the_same', 'C39_observers_change_nothing'], 'Observers that panic: C86.'),
    'C42': ('proved', ['C42_reset'], ''),
    'C43': ('proved', ['C43_map_order_is_irrelevant'], ''),
    'C25': ('proved', ['C25_compaction_interval', 'C25_compactions_are_apart'], ''),
    'C26': ('proved', ['C26_protocol'], ''),
    'C27': ('proved', ['C27_facts_of_the_other_goroutine', 'C27_refuted'], 'the unconditional promise is refuted'),
    'C28': ('proved', ['C28_compaction_is_bracketed'], ''),
    'C29': ('proved', ['C29_reset_state', 'C29_reset_without_projections', 'C29_refuted'], 'the unconditional claim is refuted'),
    'C30': ('proved', ['C30_every_event_is_given_once', 'C26_protocol', 'C30_refuted'], 'C30_refuted: not for a projection whose state outlives Reset'),
    'C37': ('proved', ['C37_dispatch_terminates', 'C37_tick_terminates', 'C37_cyclic_application_diverges'], ''),
  "C65": ("proved", ["C65_deterministic","C65_text"], ""),
  "C66": ("proved", ["C66_layout", "C66_line","C66_ids","C66_silent"], ""),
  "C67": ("proved", ["C67_order_does_not_matter"], ""),
  "C68": ("proved", ["C68_no_placeholder_remains","C68_no_bad_phrase_remains","C68_other_text_is_unchanged","C68_idempotent","C68_result"], ""),
  "C69": ("proved", ["C69_file_and_line","C69_without_file","C69_function_iff", "C69_decimal", "C69_numeral_unique"], ""),
  "C70": ("proved", ["C70_is_a_sequence_of_ticks","C70_alternates","C70_time","C70_until_failure"], "floating-point rounding of the scaling factor is not modelled: the scaling is an arbitrary function"),
  "C73": ("proved", ["C73_location_of_panic","C73_refuted","C73_location_of_call"], "holds of stacks whose panicking function is among the first eight program counters; C73_refuted gives a deeper stack for which the code reports nothing"),
 "C52": ("proved", ["C52_ok","C52_queries","C52_abort","C52_explanation","C52_log", "C52_report","C52_panic_propagates","C52_panic_refuted"], "user functions as programs over the methods of SatisfyT; one goroutine"),
 "C53": ("proved", ["C53_cleanup","C53_refuted"], "complete shape of the events of Done(); the promise that all cleanup functions run is refuted"),
  "C72": ("proved", ["C72_layout", "C72_trimmed", "C72_titles","C72_empty_sections"], ""),
  "C45": ("proved", ["C45_message"], ""),
  "C46": ("proved", ["C46_type"], ""),
  "C47": ("proved", ["C47_match","C47_match_any"], ""),
  "C48": ("proved", ["C48_only","C48_only_any", "C48_parameter"], ""),
  "C49": ("proved", ["C49_verdict","C49_composite","C49_not","C49_repeat","C49_not_none","C49_repeat_all","C49_single","C49_constructors"], ""),
  "C51": ("proved", ["C51_stable"], ""),
  "C60": ("proved", ["C60_reports","C60_root","C60_children"], ""),
  "C61": ("proved", ["C61_repeat", "C61_numbers"], ""),
  "C62": ("proved", ["C62_explanation","C62_suggestions","C62_similar", "C62_relevant", "C62_type_words"], ""),
  "C63": ("proved", ["C63_dispatch","C63_refuted"], "holds of dispatch cycles; C63_refuted gives a tick for which it does not"),
  "C64": ("proved", ["C64_failures","C64_counts", "C64_entry"], ""),
  "C50": ("proved", ["C50_rejected","C50_reason","C50_not_performed"], ""),
  "C54": ("proved", ["C54_monotone","C54_reverse","C54_by_duration"], ""),
  "C55": ("proved", ["C55_dispatch","C55_tick","C55_advance","C55_innermost"], ""),
  "C56": ("proved", ["C56_engagement","C56_reported","C56_disabled","C56_named","C56_matching"], ""),
  "C57": ("proved", ["C57_usable","C57_outside","C57_panic","C57_restored","C57_interceptor"], ""),
  "C58": ("proved", ["C58_usable","C58_after_call","C58_refuted"], "C58_refuted: the promise fails after a nested Call"),
  "C59": ("proved", ["C59_expect","C59_observers","C59_every_expect","C59_failed"], ""),
  "C75": ("proved", ["C75_prepare"], ""),
  "C76": ("proved", ["C76_history"], ""),
  "C44": ("proved", ["C44_panics","C44_propagates","C44_never_raw"], ""),
  "C74": ("proved", ["C74_unreachable"], ""),
  "C40": ("proved", ["C40_mutual_exclusion","C40_serialised"], ""),
  "C41": ("proved", ["C41_ids_are_distinct","C41_refuted"], "C41_refuted: the claim does not extend to a concurrent Reset"),
  "C71": ("proved", ["C71_linearizable","C71_results_are_prefixes","C71_results_grow","C71_nothing_is_missed"], ""),
  "C77": ("proved", ["C77_calls_end"], ""),
  "C78": ("proved", ["C78_dispatched_once","C78_engaged_once","C78_projections_engaged_once"], ""),
  "C79": ("proved", ["C79_not_early","C79_delivered","C79_none_due"], ""),
  "C80": ("proved", ["C80_function","C80_cleanup","C80_cleanup_refuted","C80_depth_refuted"], "For calls at most 50 deep above Done; functions named like Done are excluded. The refutations show both limits are needed."),
  "C81": ("proved", ["C81_scope","C81_unrecognised","C81_dispatch"], ""),
  "C82": ("proved", ["C82_in_progress","C82_outcome","C82_then","C82_then_event","C82_call","C82_no_deadlock","C82_finite","C82_interceptor_executes_refuted","C82_interceptor_replaces_refuted","C82_handler_executes_refuted"], ""),
  "C83": ("proved", ["C83_diff_is_unambiguous","C83_unmarked","C83_markers_refuted"], "That the pieces given by diffmatchpatch.DiffMain spell both texts is a hypothesis (a dependency)."),
  "C84": ("proved", ["C84_calls","C84_queries","C84_cleanup","C84_ok","C84_report","C84_abort","C84_no_deadlock","C84_finite","C84_alone","C84_left_behind_refuted","C84_late_cleanup_refuted","C84_string_method_refuted","C84_abort_elsewhere_refuted"], "The refuted theorems show what does not hold when goroutines outlive the function or format arguments with the *SatisfyT."),
  "C85": ("proved", ["C85_life","C85_done","C85_rejected","C85_notified","C85_verdict","C85_builtin","C85_leak_refuted","C85_done_panic_refuted","C85_notify_panic_refuted"], "A second model of the composite expectations, over arbitrary predicates whose method calls are observed; C85_builtin relates it to the first one (ExpectModel.v). Predicate() returning (nil, nil) and Report() returning nil are left out."),
  "C86": ("proved", ["C86_aggregate_events","C86_aggregate_loads","C86_process_state","C86_process_loads","C86_failed_aggregate","C86_failed_process","C86_unique_ids","C86_compaction_interval","C86_engine_usable","C86_first_observer","C86_all_told_unless_panic","C86_observers_in_order","C86_panic_propagates","C86_returns_all_told","C86_panic_ends_operation","C86_quiet_observers","C86_due_timeouts_delivered_refuted","C86_kept_events_delivered_refuted","C86_panic_always_propagates_refuted"], "Three refuted theorems state what is lost."),
  "C87": ("proved", ["C87_builtin","C87_history","C87_options","C87_configured","C87_executor","C87_executed","C87_intercepted","C87_state","C87_nested","C87_expect","C87_prepare","C87_clock_refuted","C87_bound_refuted"], "Two refuted theorems: the clock can go back and the executor can stay bound under user-defined actions."),
  "C88": ("proved", ["C88_expectation_panics","C88_expectation_means","C88_single","C88_action_panics","C88_action_does","C88_names_function_refuted","C88_nil_rejected_refuted"], "Two refuted theorems state the exceptions."),
  "C89": ("proved", ["C89_as_values","C89_growth","C89_no_nil","C89_roots_kept","C89_process_roots_kept_refuted"], "Refinement between a model with arrays, capacities and root objects (MemModel.v) and EngineModel.v: each kept slice represents a list, slices that are kept never overlap, and nothing writes to a cell that someone else reads. The refuted variant covers process roots."),
  "C90": ("proved", ["C90_given","C90_outside","C90_advance_keeps","C90_appended_kept_refuted","C90_composed_time_refuted"], "Memory-level model of the option slices (OptModel.v); user code is an arbitrary program over the arrays it can reach. The two refuted variants are the pitfalls for user-defined actions that perform AdvanceTime() with their own scope."),
  "C91": ("proved", ["C91_expect","C91_prepare","C91_verdict","C91_facts","C91_captions","C91_verdict_refuted","C91_facts_refuted"], "The log is computed from the events of ActModel with the texts of LogModel. The two refuted theorems show what user-defined expectations and actions can do."),
  "C92": ("proved", ["C92_names","C92_captions","C92_dispatch","C92_criteria","C92_similar","C92_errors","C92_dispatch_refuted","C92_untouched_refuted"], "The tables of internal/inflect are those of InflectModel. fmt.Sprintf is concatenation."),
  "C93": ("proved", ["C93_panics_are_explained"], "The text of a call rejected for an unknown handler name or for a timeout is not part of the claim. What fmt prints for the type of the implementation is a parameter."),
  "C94": ("proved", ["C94_composite","C94_satisfy","C94_leaf","C94_not","C94_repeat"], ""),
  "C95": ("proved", ["C95_story"], "StorySpec.v describes methods on their own (the calls they make) and, separately, the facts that tell calls; the theorem says that the facts of any operation of any history are such a story."),
  "C96": ("proved", ["C96_rendered","C96_harmless"], "How dapper renders values is a parameter of the model that is given the annotators; the application of the example of test_test.go:285-345 yields the lines stated there."),
  "C97": ("proved", ["C97_new","C97_nil","C97_same_engine","C97_order"], "C97_same_engine relates the engine that is built to the configuration (Config) that the model of the operations starts from."),
  "C98": ("proved", ["C98_report","C98_line","C98_complete"], "The writers of dogmatiq/iago (count.Writer, Indenter) and package must are modelled as they are documented; C98_count_after_error shows the departure from io.WriterTo."),
  "C99": ("proved", ["C99_reset","C99_no_other_effect","C99_called","C86_engine_usable","C86_aggregate_events","C86_process_state","C86_unique_ids"], "Functions that call the engine themselves (which deadlocks) are not modelled. The theorems of C86 hold for histories in which reset functions panic."),
  "C100": ("proved", ["C100_aggregate_roots","C100_process_roots","C100_histories","C100_all_roots_refuted"], "Changes made while an operation is running, by observers or by other goroutines, are not covered. The refuted theorem shows that process roots must be excluded from the first claim."),
  "C101": ("proved", ["C101_alone","C101_is_a_history","C101_due_timeouts_are_dispatched","C101_none_overdue","C101_no_timeout_waits_forever"], "The other goroutines' operations are given in the order in which they get the engine's mutex (C40). Two assumptions of the last theorem are the user's business: that no tick of the run returns an error or panics, and that the time of its ticks grows without bound (a positive scale and a wall clock)."),
  "C102": ("proved", ["C102_disabled_is_absent","C102_never_enabled_is_absent","C102_same_results","C102_without_other_consumer_refuted"], "The last theorem shows why the condition on messages that only the disabled handler consumes is needed."),
  "C103": ("proved", ["C103_tests_do_not_depend_on_real_time","C103_facts","C103_operations","C103_without_start_time_refuted","C103_operations_without_time_refuted"], "Relational: two runs whose readings of the real clock are unrelated. The refuted theorems show that the two conditions (a start time, WithCurrentTime) are needed."),
  "C104": ("proved", ["C104_expectations_only_look","C104_met_expectations_change_nothing","C104_other_expectations","C104_facts","C104_without_stopping_refuted","C104_panicking_refuted"], "Relational: the test and its transform by unexpecting. The refuted theorems show that both conditions are needed."),
  "C105": ("proved", ["C105_order_of_names","C105_facts"], "Relational: two runs whose orders of iteration are unrelated permutations."),
  "C106": ("proved", ["C106_pass_through_test","C106_pass_through_call","C106_over_another_refuted"], "Relational. The refuted theorem shows that in a test with another interceptor the interceptor of a Call() does make a difference: it replaces the other one."),
  "C107": ("proved", ["C107_dispatch_depends_on_the_instances_it_names","C107_contents_are_seen_only_by_naming"], "The converse direction of C09 (which says what an operation leaves alone). A panic is excluded because a panic of ApplyEvent while an aggregate is replayed is not preceded by a fact about the instance."),
  "C108": ("proved", ["C108_an_idle_tick_does_nothing","C108_an_idle_tick_leaves_no_trace","C108_nothing_is_due_after_a_tick","C108_only_time_makes_things_due","C108_ticking_twice_is_ticking_once","C108_advancing_to_the_same_time_does_nothing"], "A cancelled idle Tick changes nothing either, but returns early. In a test, what is done in between must not be performed at an earlier time (an action nested in a Call may be performed at the time at which the Call began) and the second AdvanceTime must not engage more handlers than the first."),
}

ids = [json.loads(l)['id'] for l in open(os.path.join(root, 'properties.jsonl'))]
src = ''
tdir = os.path.join(root, 'rocq', 'theories')
for f in sorted(os.listdir(tdir)):
    if f.endswith('.v'):
        src += open(os.path.join(tdir, f)).read()
thms = set(re.findall(r'^\s*Theorem\s+(\w+)', src, re.M))
used = set()
claims = []
for i in ids:
    st, ts, note = CLAIMS.get(i, ('partial', [], 'not yet proved'))
    for t in ts:
        if t not in thms:
            sys.exit('unknown theorem ' + t)
    used |= set(ts)
    claims.append({'property': i, 'status': st, 'theorems': ts, 'note': note})
extra = sorted(t for t in thms - used if re.match(r'C\d\d_', t))
if extra:
    print('theorems not in the manifest:', extra)
json.dump({'claims': claims}, open(os.path.join(root, 'MANIFEST.json'), 'w'), indent=1, ensure_ascii=False)
print({s: sum(c['status'] == s for c in claims) for s in ('proved', 'partial', 'not_applicable')})
