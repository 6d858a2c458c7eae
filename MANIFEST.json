{
 "claims": [
  {
   "property": "C01",
   "status": "proved",
   "theorems": [
    "C01_counter_is_clipped_walk",
    "C01_prediction",
    "C01_two_same_outcomes_decide",
    "C01_hysteresis"
   ],
   "note": "Saturating counter equals the clipped walk; prediction and hysteresis consequences."
  },
  {
   "property": "C02",
   "status": "partial",
   "theorems": [
    "C02_plru_victim_in_range_partial",
    "C02_plru_never_raises",
    "C02_plru_victim_in_range_refuted"
   ],
   "note": "False as stated for every ways_num that is not a power of two (get() can return a way >= ways_num); proved for powers of two; get/update never raise."
  },
  {
   "property": "C03",
   "status": "proved",
   "theorems": [
    "C03_plru_avoids_most_recent"
   ],
   "note": "For powers of two >= 2."
  },
  {
   "property": "C04",
   "status": "proved",
   "theorems": [
    "C04_plru_full_round"
   ],
   "note": "For powers of two, from every reachable state."
  },
  {
   "property": "C05",
   "status": "proved",
   "theorems": [
    "C05_lfsr_range",
    "C05_lfsr_bits",
    "C05_lfsr_step_injective",
    "C05_lfsr_step_surjective",
    "C05_lfsr_zero_iff",
    "C05_lfsr_seed_mod"
   ],
   "note": "Range, bit-level meaning, bijectivity and zero-fixpoint of step, seed reduction."
  },
  {
   "property": "C06",
   "status": "proved",
   "theorems": [
    "C06_lfsr_full_period",
    "C06_lfsr_distinct",
    "C06_lfsr_covers"
   ],
   "note": "Period 2^64-1 from every non-zero seed; needs the factorisation of 2^64-1, whose cofactor powers are computed with vm_compute."
  },
  {
   "property": "C07",
   "status": "proved",
   "theorems": [
    "C07_delayer_exact",
    "C07_delayer_rejects_negative"
   ],
   "note": "Exact delay in number of samples."
  },
  {
   "property": "C08",
   "status": "partial",
   "theorems": [
    "C08_delayer_in_cycles_refuted",
    "C08_delayer_in_cycles_partial",
    "C08_delayer_never_older_partial"
   ],
   "note": "False in clock cycles: a second callback pass in one cycle samples twice; proved for cycles with one pass."
  },
  {
   "property": "C09",
   "status": "proved",
   "theorems": [
    "C09_counters_bounds",
    "C09_counters_exact",
    "C09_counters_after_reset"
   ],
   "note": "Exact when no bin raises; bounds when bins raise."
  },
  {
   "property": "C10",
   "status": "proved",
   "theorems": [
    "C10_covered_iff_all_bins_hit",
    "C10_covered_sound",
    "C10_all_covered_iff",
    "C10_empty_point_covered_iff_sampled"
   ],
   "note": "Empty points are covered by the first effective sample."
  },
  {
   "property": "C11",
   "status": "proved",
   "theorems": [
    "C11_skip_changes_nothing",
    "C11_stopped_only_if_covered",
    "C11_stops_exactly",
    "C11_never_skipped_with_repeat_point",
    "C11_begins",
    "C11_edit_resumes"
   ],
   "note": "Skips are exact and change nothing but the call counter. C11_begins: a new or cleared group samples from its first call. C11_edit_resumes: adding or resetting a point restarts sampling unless the user stopped the group."
  },
  {
   "property": "C12",
   "status": "partial",
   "theorems": [
    "C12_once_point_frozen_refuted",
    "C12_once_group_frozen_partial"
   ],
   "note": "False: a covered once-point is still evaluated while its group is unfinished; proved for finished groups."
  },
  {
   "property": "C13",
   "status": "partial",
   "theorems": [
    "C13_report_totals",
    "C13_report_bounds",
    "C13_report_full",
    "C13_report_hinted_sound",
    "C13_report_hinted_agrees_refuted",
    "C13_report_hinted_agrees_partial"
   ],
   "note": "Totals proved; the report's hinted field can disagree with is_all_covered() (refuted), and agrees after each effective sample."
  },
  {
   "property": "C14",
   "status": "proved",
   "theorems": [
    "C14_add_point_frame",
    "C14_del_point_frame",
    "C14_reset_point_frame"
   ],
   "note": "Add, delete and reset frames and rejected calls."
  },
  {
   "property": "C15",
   "status": "partial",
   "theorems": [
    "C15_raise_keeps_sampling_refuted",
    "C15_raise_keeps_sampling_partial"
   ],
   "note": "False when the group was fully covered with a once=False point; proved when it was not fully covered."
  },
  {
   "property": "C16",
   "status": "partial",
   "theorems": [
    "C16_stop_sample_refuted",
    "C16_stop_attribute_partial",
    "C16_pause",
    "C16_resume_then_sample"
   ],
   "note": "False: the method stop_sample is hidden by the attribute (TypeError); attribute assignment and resume_sample proved."
  },
  {
   "property": "C17",
   "status": "proved",
   "theorems": [
    "C17_marks_exact",
    "C17_marks_frame",
    "C17_marks_no_match",
    "C17_marks_succeed"
   ],
   "note": "strip, fnmatch, re and set order are parameters."
  },
  {
   "property": "C18",
   "status": "proved",
   "theorems": [
    "C18_conditions",
    "C18_complementary",
    "C18_list_bin"
   ],
   "note": "All predefined conditions over Z."
  },
  {
   "property": "C19",
   "status": "proved",
   "theorems": [
    "C19_creation",
    "C19_fifo",
    "C19_next",
    "C19_bounded"
   ],
   "note": "Every history of deliveries and reads; capacities in Z."
  },
  {
   "property": "C20",
   "status": "partial",
   "theorems": [
    "C20_fifo",
    "C20_next",
    "C20_bounded",
    "C20_not_started",
    "C20_full_outside_env_refuted",
    "C20_outside_env_partial"
   ],
   "note": "Proved inside an Env; outside an Env a full queue kills the monitor (refuted), partial up to that point. C20_not_started: before start_monitor."
  },
  {
   "property": "C21",
   "status": "proved",
   "theorems": [
    "C21_rejects",
    "C21_forms",
    "C21_hook_port_agree",
    "C21_no_uu_without_arguments"
   ],
   "note": "Every argument combination and own name; str.replace modelled."
  },
  {
   "property": "C22",
   "status": "proved",
   "theorems": [
    "C22_drivers",
    "C22_monitors",
    "C22_exact"
   ],
   "note": "Entries of every driver and monitor after any attach; uniqueness of hooks on success."
  },
  {
   "property": "C23",
   "status": "partial",
   "theorems": [
    "C23_verdict",
    "C23_rejections",
    "C23_accepts_partial",
    "C23_agents_refuted"
   ],
   "note": "Exact acceptance condition for fresh models; two clauses about `agents` are false (refuted)."
  },
  {
   "property": "C24",
   "status": "partial",
   "theorems": [
    "C24_sticky_refuted",
    "C24_fresh_partial"
   ],
   "note": "False: matched flags are never reset, a second attach checks attribute names only."
  },
  {
   "property": "C25",
   "status": "partial",
   "theorems": [
    "C25_unattach_refuted",
    "C25_reattach_refuted"
   ],
   "note": "False: unattach always raises AttributeError and re-attaching never detaches."
  },
  {
   "property": "C26",
   "status": "partial",
   "theorems": [
    "C26_rejected_refuted",
    "C26_rejected_partial"
   ],
   "note": "False: entries are injected before the checks; what is preserved is proved."
  },
  {
   "property": "C27",
   "status": "partial",
   "theorems": [
    "C27_free_names_refuted",
    "C27_free_names_partial"
   ],
   "note": "False for agent ports held by other attribute names and overlapping `methods`; proved otherwise."
  },
  {
   "property": "C28",
   "status": "proved",
   "theorems": [
    "C28_priority_pass",
    "C28_priority_pass_total"
   ],
   "note": "Stable order by priority, events and return value, for every list of tasks."
  },
  {
   "property": "C29",
   "status": "proved",
   "theorems": [
    "C29_model_first",
    "C29_method",
    "C29_dut_first",
    "C29_once"
   ],
   "note": "For every reachable state, every task awaiting a driver call, every set of models and every method. C29_model_first: the method starts only after each model-first hook has been registered by the call and called by the clock task. C29_method and C29_dut_first: the dut-first hooks are handed to a task created after the method has returned, and are called before the comparison. C29_once: no registration is called twice. A call that failed, was cancelled or still waits is one of the listed cases; that the clock gets to every registered hook in time is C74."
  },
  {
   "property": "C30",
   "status": "proved",
   "theorems": [
    "C30_comparisons"
   ],
   "note": "The comparison loop for every list of hook results (in the order they were appended) and every comparison function, which may raise."
  },
  {
   "property": "C31",
   "status": "partial",
   "theorems": [
    "C31_model_first_partial",
    "C31_dut_first_partial",
    "C31_refuted"
   ],
   "note": "Model-first hooks: for every reachable state and every scheduled driver call, the order and priority given to exec are those its hooks are registered with, provided that the two attributes of the driver are kept (attributes) as the executor does. Dut-first hooks: only if the driver's priority is not reassigned before the background task registers them; refuted otherwise (two calls of the same driver in one group)."
  },
  {
   "property": "C32",
   "status": "proved",
   "theorems": [
    "C32_arguments",
    "C32_ports",
    "C32_hooks",
    "C32_received"
   ],
   "note": "inspect.Signature.bind and apply_defaults for every proper parameter list against a separate description of Python calls; delivery to every port and the split of hooks for every list of attached models. C32_received: what each kind of hook is called with. A full port drops the message, hence the room condition."
  },
  {
   "property": "C33",
   "status": "partial",
   "theorems": [
    "C33_step_when_all_wait_partial",
    "C33_nothing_ready_partial",
    "C33_step_with_cancellation_partial",
    "C33_cancelled_task_refuted",
    "C33_waking_hook_refuted",
    "C33_asyncio_gather_refuted"
   ],
   "note": "Proved for arbitrary coroutines that cancel no task and whose hooks without completion event wake nobody (also with the ready queue empty up to the stop handle if asyncio.gather and timers are not used; and with cancellation: only tasks whose awaited future was cancelled can still run). The unrestricted claim is false: three executions (cancelled task, waking monitor hook, asyncio.gather) are exhibited in the _refuted theorems. The last Step after cancel_all_tasks is not covered."
  },
  {
   "property": "C34",
   "status": "proved",
   "theorems": [
    "C34_clock_cycles",
    "C34_exactly_n"
   ],
   "note": "Arbitrary coroutines, hooks and schedules, no restriction on the test; cancellation of the waiting task is an explicit outcome, excluded before the end of the test if nothing is cancelled."
  },
  {
   "property": "C35",
   "status": "proved",
   "theorems": [
    "C35_gather",
    "C35_not_stuck"
   ],
   "note": "For every list of coroutines, every reachable state and every execution of the loop model: gather's continuation starts with the results in argument order in a state where all children have returned, or with the exception of the first child in argument order that failed, or the awaiting task was cancelled; otherwise it is still inside, waiting for the next child in order; it never waits for a done child without being scheduled."
  },
  {
   "property": "C36",
   "status": "proved",
   "theorems": [
    "C36_groups",
    "C36_rejected",
    "C36_in_order",
    "C36_results",
    "C36_wait_results"
   ],
   "note": "Recording: every sequence of exec(...) calls against a separate description (groups in order of first use, accepted calls in order, rejected calls raise). Execution: every reachable state, any coroutines that can only end by returning their outcome (all wrapped user coroutines and driver calls), any other tasks; the results dictionary maps each key to the result or the list of results of its group."
  },
  {
   "property": "C37",
   "status": "partial",
   "theorems": [
    "C37_all",
    "C37_none",
    "C37_invalid",
    "C37_any",
    "C37_wait_all",
    "C37_wait_all_nothing",
    "C37_wait_all_again",
    "C37_all_refuted"
   ],
   "note": "Every exit mode on the loop model: 'all' (all groups executed, or the exception of the first failing group), 'none' (no waiting, tasks created but not begun), 'any' (at least one group executed completely; the event of the executor being set by nobody else), invalid values, wait_all and its repetition. Refuted: with exit='all' and a raising group the block ends while other groups are still running."
  },
  {
   "property": "C38",
   "status": "partial",
   "theorems": [
    "C38_result_partial",
    "C38_result_or_cancelled",
    "C38_steps_after_main",
    "C38_cancelled_before_step",
    "C38_all_wait_at_cancel",
    "C38_one_step_refuted",
    "C38_all_cancelled_refuted",
    "C38_returns_refuted",
    "C38_result_refuted"
   ],
   "note": "Proved for all executions: the main coroutine finishes with the value of the test, after one further dut.Step and before the one after the next (if user code neither awaits nor cancels the main task); at most one Step follows its end; every Step after the end of the test is preceded in its cycle by cancel_all_tasks, and all tasks found there are done; at that point every other task is suspended. Refuted by concrete executions: exactly one Step (there are two), no task is left (one created during the cancellation), run() always returns (a task that suppresses CancelledError), result if a task awaits the main task. That run() returns when the cancelled tasks do end is C72_run_returns."
  },
  {
   "property": "C39",
   "status": "proved",
   "theorems": [
    "C39_value",
    "C39_value_never",
    "C39_all_valid",
    "C39_all_valid_never",
    "C39_condition",
    "C39_condition_raises",
    "C39_condition_never",
    "C39_all_valid_no_pins"
   ],
   "note": "For every stream of sampled values; the never cases are proved too."
  },
  {
   "property": "C40",
   "status": "proved",
   "theorems": [
    "C40_change",
    "C40_change_never",
    "C40_rising_edge",
    "C40_rising_edge_never",
    "C40_falling_edge",
    "C40_falling_edge_never"
   ],
   "note": "First edge after the call, for every stream of sampled values."
  },
  {
   "property": "C41",
   "status": "proved",
   "theorems": [
    "C41_only",
    "C41_routed",
    "C41_exact"
   ],
   "note": "Every tree, rule and DUT; which of several pins for one signal stays is left open."
  },
  {
   "property": "C42",
   "status": "proved",
   "theorems": [
    "C42_once",
    "C42_unconnected",
    "C42_handed_back",
    "C42_reads",
    "C42_ignored",
    "C42_raises"
   ],
   "note": "Placement, and what unconnected signals read and do when written, for both settings of unconnected_signal_access."
  },
  {
   "property": "C43",
   "status": "proved",
   "theorems": [
    "C43_predicts",
    "C43_counted",
    "C43_no_change"
   ],
   "note": "Agreement with bind on any DUT; detection changes no signal, and nothing at all before the first bind."
  },
  {
   "property": "C44",
   "status": "partial",
   "theorems": [
    "C44_refuted",
    "C44_partial"
   ],
   "note": "False: the path is ignored by prefix rules and other rules raise TypeError; proved that connecting names are never denied by prefix trees."
  },
  {
   "property": "C45",
   "status": "partial",
   "theorems": [
    "C45_counts",
    "C45_refuted",
    "C45_partial"
   ],
   "note": "Exact in terms of routing; in terms of the signals false when two pins go to one signal, exact otherwise."
  },
  {
   "property": "C46",
   "status": "partial",
   "theorems": [
    "C46_refuted",
    "C46_partial",
    "C46_prefix_partial"
   ],
   "note": "False for signal lists, bundle lists and unconnected_signal_access=False; proved for trees without lists."
  },
  {
   "property": "C47",
   "status": "partial",
   "theorems": [
    "C47_refuted",
    "C47_partial"
   ],
   "note": "False after rebinding and for bundle lists; proved for the first bind."
  },
  {
   "property": "C48",
   "status": "proved",
   "theorems": [
    "C48_reads",
    "C48_keys",
    "C48_same",
    "C48_full"
   ],
   "note": "Any tree, store and pin behaviour; dictionaries of numbers that the pins store as given."
  },
  {
   "property": "C49",
   "status": "partial",
   "theorems": [
    "C49_reads_partial",
    "C49_same_partial",
    "C49_exact_partial",
    "C49_refuted"
   ],
   "note": "False with bundle lists (their keys are not understood by assign); proved for trees without bundle lists."
  },
  {
   "property": "C50",
   "status": "partial",
   "theorems": [
    "C50_partial",
    "C50_refuted",
    "C50_levels"
   ],
   "note": "C50_levels: for every bound bundle and every dictionary with '*' entries on any levels, which value each pin gets (its own entry, otherwise the '*' of the innermost dictionary on the way to it, outputs excepted) and that nothing else changes; C50_partial is the case of '*' on the top level only. That the dictionary stays usable is false: the '*' entry is deleted from the caller's dictionary (C50_refuted)."
  },
  {
   "property": "C51",
   "status": "proved",
   "theorems": [
    "C51_frame",
    "C51_effect",
    "C51_unknown",
    "C51_log"
   ],
   "note": "Any tree and pin behaviour, also when a write raises. Unknown keys are reported on every level by their full name, and nothing else is; below an element of a bundle list the reported name is relative to the element (C51_log says exactly which)."
  },
  {
   "property": "C52",
   "status": "proved",
   "theorems": [
    "C52_set_all",
    "C52_randomize",
    "C52_draws",
    "C52_in_range"
   ],
   "note": "Any tree, pin behaviour and random function."
  },
  {
   "property": "C53",
   "status": "proved",
   "theorems": [
    "C53_unconditional",
    "C53_bound_again"
   ],
   "note": "Proved for every list of requests without conditions (None, dictionaries, also repeated ones, callables whose dictionaries have no condition), with an arbitrary DUT, assignment and callback functions. C53_bound_again: a bundle bound n times (the callback is registered once per bind) applies n requests per cycle."
  },
  {
   "property": "C54",
   "status": "partial",
   "theorems": [
    "C54_blocks",
    "C54_partial",
    "C54_returns",
    "C54_refuted",
    "C54_busy",
    "C54_effect"
   ],
   "note": "Proved: schedule of every list (with callables, conditional or not) in which no dictionary object is repeated. The claim that process_requests returns only after all requests were applied is refuted (the last request may still wait for its condition); the partial theorem says exactly what has been applied at the return, and C54_returns when it returns. C54_effect: what each cycle does to the signals and the rest of the memory (data assigned, then functions called in order, or nothing). C54_busy: a call while requests are queued raises and does nothing."
  },
  {
   "property": "C55",
   "status": "partial",
   "theorems": [
    "C55_partial",
    "C55_callable_refuted",
    "C55_reuse_refuted",
    "C55_functions",
    "C55_second_pass"
   ],
   "note": "Proved for dictionaries in the list itself used once; refuted for dictionaries produced by callables (never reported) and for a dictionary used twice (stale entry). C55_functions: the whole entries, with the values returned by the functions of the request. C55_second_pass: dictionaries requested again are applied without regard to their conditions and report the first time."
  },
  {
   "property": "C56",
   "status": "partial",
   "theorems": [
    "C56_others_partial",
    "C56_new",
    "C56_independent_partial",
    "C56_list_elements",
    "C56_bundle_list_refuted"
   ],
   "note": "Object heap model of Bundle.__init__, from_signallist and from_bundlelist; what binding connects is arbitrary. Proved for classes without bundle lists at any nesting (own signals, signal lists, sub-bundles); refuted for bundle lists, whose element bundles are shared by all instances of a class. C56_new: creating an instance disturbs no instance of any class. C56_list_elements: the elements of one bundle list are independent of each other."
  },
  {
   "property": "C57",
   "status": "proved",
   "theorems": [
    "C57_signals",
    "C57_rules",
    "C57_describes"
   ],
   "note": "Signals and paths for every tree with attribute-like names; rules for prefix trees."
  },
  {
   "property": "C58",
   "status": "partial",
   "theorems": [
    "C58_counts",
    "C58_totals",
    "C58_rendered_once_refuted",
    "C58_rendered_once_partial",
    "C58_no_id_renders_nothing",
    "C58_get_stats_refuted"
   ],
   "note": "Counting proved for all record sequences; rendering twice and get_stats are false (refuted), one handler proved."
  },
  {
   "property": "C59",
   "status": "proved",
   "theorems": [
    "C59_declares",
    "C59_width",
    "C59_prefix_selection",
    "C59_regex_selection",
    "C59_dict_selection",
    "C59_empty"
   ],
   "note": "Class body as text: continuation lines joined, widths with tab 4, selection by prefix and dictionary. Selection by regex: the groups of each match joined, groups that took no part contributing nothing (the search itself is arbitrary)."
  },
  {
   "property": "C60",
   "status": "proved",
   "theorems": [
    "C60_adder",
    "C60_adder_unique",
    "C60_adder_monitor",
    "C60_adder_port"
   ],
   "note": "All operands; uniqueness; monitor and port variants accept exactly the correct results."
  },
  {
   "property": "C61",
   "status": "proved",
   "theorems": [
    "C61_monitor",
    "C61_every_cycle",
    "C61_ports",
    "C61_all_put",
    "C61_hooks"
   ],
   "note": "The monitor task is a program of the loop model; its method is an arbitrary computation that does not wait (one OMem operation); the attached models do not change while it runs. Proved for every execution with arbitrary other tasks: exactly one call per cycle, each value offered in order to all ports and hooks, nothing for None (a bounded port that is full drops it, as Port.put does); the log is complete whenever dut.Step is about to be called."
  },
  {
   "property": "C62",
   "status": "proved",
   "theorems": [
    "C62_fifo",
    "C62_get_delivers",
    "C62_only_get_takes",
    "C62_waiting_getter",
    "C62_no_waiting_getter_at_step",
    "C62_event_set"
   ],
   "note": "Queues: FIFO and exactly-once by a history invariant over every execution; a task waiting in get() implies at least as many woken getters as items (any execution, cancellation included), and none waits on a nonempty queue when the clock advances (for tests whose event-less hooks are calm). Events: set() schedules every waiter."
  },
  {
   "property": "C63",
   "status": "proved",
   "theorems": [
    "C63_exact",
    "C63_at_bind"
   ],
   "note": "Any tree; pins connected, not outputs; modes of WriteMode."
  },
  {
   "property": "C64",
   "status": "proved",
   "theorems": [
    "C64_plru_protection"
   ],
   "note": "A used way is protected for log2(ways)-1 further victims."
  },
  {
   "property": "C65",
   "status": "partial",
   "theorems": [
    "C65_failed_pass_leaves_nothing_refuted"
   ],
   "note": "False: a hook that raises leaves the task list filled; the next pass awaits finished coroutines."
  },
  {
   "property": "C66",
   "status": "partial",
   "theorems": [
    "C66_unnamed_single_condition_refuted",
    "C66_named_single_condition_partial"
   ],
   "note": "False for the documented call without a name; proved for named points."
  },
  {
   "property": "C67",
   "status": "partial",
   "theorems": [
    "C67_get_path_refuted",
    "C67_get_path_partial"
   ],
   "note": "False before the port is named (path \"agent.\" is remembered); proved afterwards."
  },
  {
   "property": "C68",
   "status": "partial",
   "theorems": [
    "C68_reused_decorator_refuted",
    "C68_reused_decorator_partial"
   ],
   "note": "False when the path depends on the function name; proved otherwise."
  },
  {
   "property": "C69",
   "status": "partial",
   "theorems": [
    "C69_refuted",
    "C69_partial"
   ],
   "note": "False for dict rules exchanging names; proved when no key is also a value."
  },
  {
   "property": "C70",
   "status": "proved",
   "theorems": [
    "C70_main_after_one_step",
    "C70_after_creation"
   ],
   "note": "For all executions of the loop model. Counting from the creation assumes that hooks without completion event are calm (as in C33) and that the creator is a task or the test, not a hook."
  },
  {
   "property": "C71",
   "status": "partial",
   "theorems": [
    "C71_all_failed",
    "C71_test_hangs",
    "C71_refuted"
   ],
   "note": "Refuted for all executions: if every group raises, nobody sets the event and the block never ends (unless its task is cancelled); if it is the test that leaves the block and nothing cancels, run() never returns."
  },
  {
   "property": "C72",
   "status": "proved",
   "theorems": [
    "C72_clock_ticks",
    "C72_unboundedly_many_steps",
    "C72_never_stalls",
    "C72_waiter_goes_on",
    "C72_run_returns",
    "C72_waiting_hook_stalls"
   ],
   "note": "For all infinite executions, without a fairness assumption: whatever the states, dut.Step is reached again as long as no other task keeps running for ever, provided that the priority coroutines (hooks, run by the clock task itself) do not wait; run() returns once all other tasks have ended. Progress is stated as the impossibility of the opposite (the proofs are constructive; C72_clock_ticks gives the step itself). C72_waiting_hook_stalls shows that the condition on hooks is needed. That the clock task does not end is a hypothesis: it ends if somebody cancels it or a hook raises."
  },
  {
   "property": "C73",
   "status": "proved",
   "theorems": [
    "C73_distinct",
    "C73_created",
    "C73_element",
    "C73_bind",
    "C73_bind_signals",
    "C73_digit_prefix_mixes_up"
   ],
   "note": "For every format with a '#', every length and every class whose names do not begin with a digit (identifiers); C73_bind ties it to the model of bind. C73_digit_prefix_mixes_up shows that the condition is needed. Only the default rule (str); a rule passed by the user may give equal names."
  },
  {
   "property": "C74",
   "status": "proved",
   "theorems": [
    "C74_before_step",
    "C74_model_first",
    "C74_dut_first"
   ],
   "note": "For all executions of the loop model in which every coroutine given to add_priority_task neither waits nor registers hooks itself (a wrapper around a call of a function, which is what toffee registers). C74_before_step: the hook has had its turn before the next dut.Step. C74_model_first, C74_dut_first: cases of a driver call made while the test is running, after at least one more clock cycle, and the cycle in which the test returns is included; the case of a cancelled future is excluded by the statement itself where nothing is cancelled by hand. Awaiting a method that itself takes cycles is C29_method."
  },
  {
   "property": "C75",
   "status": "proved",
   "theorems": [
    "C75_outcome",
    "C75_at_most_two_steps",
    "C75_run_ends"
   ],
   "note": "For all executions of the loop model. C75_at_most_two_steps is exact: C75_nonvacuous shows two further steps. C75_run_ends has no fairness assumption; its only condition is that the event loop regains control again and again (yields). The exceptions are the values of the model's exn type; these theorems are about the loop that runs the main coroutine; what asyncio.run does with the tasks that are still pending after it is the subject of C112."
  },
  {
   "property": "C76",
   "status": "proved",
   "theorems": [
    "C76_result_or_cancelled",
    "C76_result",
    "C76_progress"
   ],
   "note": "For all executions of the loop model. env_handle is an arbitrary program (in the code it is an ordinary function, hence cannot await). C76_result_or_cancelled drops the condition that nobody awaits or cancels the main task; run() may then also be cancelled. That the run ends is C72/C75."
  },
  {
   "property": "C77",
   "status": "proved",
   "theorems": [
    "C77_groups",
    "C77_exactly_once",
    "C77_never_twice",
    "C77_registered_by_a_hook_is_lost"
   ],
   "note": "For all executions of the loop model in which hooks neither wait nor register hooks (what toffee registers). C77_registered_by_a_hook_is_lost shows that the second condition is needed: the list is cleared after the pass together with what a hook added to it. The log of registrations and starts is an inductive history of the execution (HookLog_Spec), not part of the model's state."
  },
  {
   "property": "C78",
   "status": "proved",
   "theorems": [
    "C78_stops",
    "C78_run_ends",
    "C78_never_passes",
    "C78_runtime_error",
    "C78_only_failures",
    "C78_mismatch",
    "C78_hook_raises",
    "C78_awaited"
   ],
   "note": "For all executions of the loop model with the exception handler; which task objects are deleted after a step is an arbitrary input. C78_stops, C78_run_ends, C78_never_passes, C78_runtime_error: what follows when such a task fails. C78_mismatch and C78_hook_raises apply it to driver calls and hooks; C78_only_failures is the converse. The handler is modelled for failed tasks only (not for deleted pending tasks or other errors asyncio reports). C78_awaited: the failure of a task that a test, a task or a hook awaits or gathers, or that is waited for while it runs, never calls the handler."
  },
  {
   "property": "C79",
   "status": "partial",
   "theorems": [
    "C79_monitor_failure_refuted"
   ],
   "note": "False. The agent keeps the task of its monitor (_base_agent.py:207), so the handler is not called before the end of the run. C79_monitor_failure_refuted: the method raises in the first cycle, the test goes on for two more cycles and run() returns its result."
  },
  {
   "property": "C80",
   "status": "partial",
   "theorems": [
    "C80_failure_on_cancel_refuted"
   ],
   "note": "False. cancel_all_tasks gathers the cancelled tasks with return_exceptions=True, which counts as looking at their exceptions. C80_failure_on_cancel_refuted: run() returns the result of the test although the task ended with ValueError, even if no reference to the task is kept."
  },
  {
   "property": "C81",
   "status": "partial",
   "theorems": [
    "C81_which_runs",
    "C81_runs_named",
    "C81_calls_exactly",
    "C81_own_driver",
    "C81_super_partial",
    "C81_super_refuted",
    "C81_super_plain_refuted",
    "C81_same_name_refuted"
   ],
   "note": "C81_which_runs for all agents: the driver is looked up by the __name__ of the function, so of all visible driver methods with that __name__ the last in dir() runs. C81_runs_named and C81_own_driver: with def-style names that is the method called. super() is false: C81_super_partial says which function runs (the agent's own), C81_super_refuted (overriding driver method calls itself for ever), C81_super_plain_refuted (KeyError), C81_same_name_refuted (two lambdas)."
  },
  {
   "property": "C82",
   "status": "partial",
   "theorems": [
    "C82_one_task",
    "C82_alias_refuted"
   ],
   "note": "C82_one_task for agents whose decorated functions are held under their own names. C82_alias_refuted: a second name for the same monitor method starts a second task that the env does not know."
  },
  {
   "property": "C83",
   "status": "partial",
   "theorems": [
    "C83_paths",
    "C83_paths_unshared",
    "C83_entries",
    "C83_shared_agent_refuted",
    "C83_late_agent_refuted"
   ],
   "note": "C83_paths, C83_paths_unshared for every depth of env classes: the last name in dir() that holds the agent counts; C83_entries: the same for what attach enters. C83_shared_agent_refuted (an agent under two names: hooks for the first are not served), C83_late_agent_refuted (an agent assigned after construction has no path)."
  },
  {
   "property": "C84",
   "status": "partial",
   "theorems": [
    "C84_only_rule",
    "C84_warned",
    "C84_warned_never",
    "C84_silent",
    "C84_same_pin_refuted"
   ],
   "note": "C84_warned characterises the warning for all trees and dictionaries (keys distinct), C84_warned_never and C84_silent say what it means for bind, C84_only_rule that nothing else of a new bundle changes. C84_same_pin_refuted: with two keys for one DUT name the second is not warned about although it never takes effect; C84_silent therefore assumes distinct values."
  },
  {
   "property": "C85",
   "status": "partial",
   "theorems": [
    "C85_signals",
    "C85_connected",
    "C85_children_get_nothing",
    "C85_class_name_refuted",
    "C85_sub_bundle_refuted"
   ],
   "note": "C85_signals and C85_connected for all DUTs and classes; signals are made for attributes whose class name contains XData, bind connects attributes with xdata and event (C85_class_name_refuted: these differ for the pins of the test suite). C85_children_get_nothing, C85_sub_bundle_refuted: sub-bundles of the class stay unconnected. no_clash: the class declares none of the names itself."
  },
  {
   "property": "C86",
   "status": "partial",
   "theorems": [
    "C86_signals",
    "C86_reads",
    "C86_assigns",
    "C86_not_bound_refuted",
    "C86_bound_later"
   ],
   "note": "C86_signals, C86_reads, C86_assigns. C86_bound_later: what bind adds to a bundle made by from_xport. C86_not_bound_refuted: no clock event, no connection counted, no request callback, while binding the same class does all three."
  },
  {
   "property": "C87",
   "status": "proved",
   "theorems": [
    "C87_all_hooks"
   ],
   "note": "For every reachable state in which a task awaits a driver call, with any models, method and continuation, and every later state. Whether hooks are model-first is decided by the attribute of the driver when the call starts. The cases of a call that failed, was cancelled or still waits are listed; that a registered hook has its turn before the next step of the clock is C74, and that a failing task ends the run is C78."
  },
  {
   "property": "C88",
   "status": "proved",
   "theorems": [
    "C88_concluded",
    "C88_passed"
   ],
   "note": "For all executions of the loop model with the exception handler, every reference-model set and every comparison function, for tests that cancel nothing by hand and whose hooks neither wait nor register hooks. C88_concluded: the background task of the call is over one clock cycle later. C88_passed: run() returning a value implies the comparison was made in the cycle of the call, after the dut-first hooks, and did not raise. The task must be forgotten, as it is by the driver: nobody awaits it and its object is deleted after it has ended."
  },
  {
   "property": "C89",
   "status": "proved",
   "theorems": [
    "C89_in_order",
    "C89_monitor",
    "C89_at_step",
    "C89_stride"
   ],
   "note": "For every execution of the loop model. C89_in_order: any task and coroutine (not the main task). C89_monitor: any method, the ports being queues that exist; a monitor stops when its method raises or when it is cancelled while it waits for the clock event. C89_at_step: the same at a clock edge before the end of a test without cancellation. C89_stride: the sampling distance of a method that waits k clock events. Not modelled: models attached while a result is being delivered."
  },
  {
   "property": "C90",
   "status": "proved",
   "theorems": [
    "C90_cycle",
    "C90_in_order",
    "C90_keeps_up",
    "C90_all_processed",
    "C90_one_port",
    "C90_room"
   ],
   "note": "For every execution of the loop model with a test that cancels nothing by hand, any number of ports (at least one, all different), any processing that does not wait; the ports are queues nobody else reads. C90_cycle: the cycle in which a round ends. C90_in_order: at any time before the test is over. C90_keeps_up: at every clock edge before the end of the test the model waits at an empty port, or the processing of a round has raised. C90_all_processed: k values on every port means k rounds processed. C90_one_port, C90_room: with one port everything put is processed at each clock edge, and at any time the port holds at most what was put in this cycle. Processing that waits is not covered here."
  },
  {
   "property": "C91",
   "status": "proved",
   "theorems": [
    "C91_not_understood",
    "C91_looking_only",
    "C91_complaint",
    "C91_step",
    "C91_only_step",
    "C91_writes",
    "C91_set",
    "C91_not_found",
    "C91_print",
    "C91_list"
   ],
   "note": "The DUT and its signals belong to picker, which is not in the repository: each method is an arbitrary function of arguments and state that answers or raises. Strings are ASCII; split and int are proved equal to a grammar of words and numerals (Python's limit on the number of digits of int is not modelled). Messages are constructors, not texts; the rendering of bin/hex is not modelled; the line handling of pdb (which strips arguments) is not modelled, so an argument of blanks alone, for which IndexError is raised, is covered although pdb never passes one."
  },
  {
   "property": "C92",
   "status": "partial",
   "theorems": [
    "C92_force",
    "C92_release",
    "C92_restored_partial",
    "C92_restored_refuted"
   ],
   "note": "False for commands ended by an exception (C92_restored_refuted: a write that raises in tforce leaves the check off and the forcing mode on); proved for all commands that return."
  },
  {
   "property": "C93",
   "status": "partial",
   "theorems": [
    "C93_rules",
    "C93_describes_partial",
    "C93_refuted"
   ],
   "note": "The text of the rules is proved for every tree and dictionary (C93_rules), and right for the signals of the bundle itself (C93_describes_partial). Below a sub-bundle it is wrong: the dictionary must hold the name the sub-bundle expects (e.g. req_valid), while the rule is looked up under the path (req.valid), so a connected signal is shown as matching nothing (C93_refuted)."
  },
  {
   "property": "C94",
   "status": "proved",
   "theorems": [
    "C94_every_put",
    "C94_fails_at_once",
    "C94_same_cycle"
   ],
   "note": "C94_same_cycle joins C61 and C90: for every execution of the loop model with a test that cancels nothing by hand, where only the monitor puts into the port and only the model looks into it, the model being started before the first call of the monitor. C94_every_put and C94_fails_at_once: the same for a port filled by anybody. C90_one_port and C90_room (under C90) give the bound on what is in the port. Models with several ports: C90."
  },
  {
   "property": "C95",
   "status": "proved",
   "theorems": [
    "C95_call",
    "C95_still_called",
    "C95_background",
    "C95_effects_remain"
   ],
   "note": "Proved in full, for every execution of the loop model: C95_call (set-up of the call), C95_still_called (hooks of a rejected call are called before the clock goes on), C95_background (hooks called after the method); ports exist (their queues are made when the model is). C95_effects_remain is an execution in which a rejected call has both effects."
  },
  {
   "property": "C96",
   "status": "proved",
   "theorems": [
    "C96_get",
    "C96_get_waits",
    "C96_put",
    "C96_wait",
    "C96_sleep0_turns",
    "C96_sleep0_same_cycle",
    "C96_sleep_unbounded"
   ],
   "note": "Proved in full, for every execution of the loop model (the queue or event exists; in toffee the caller holds the object). C96_sleep0_same_cycle: before the end of the test, hooks without completion event being calm as in C33. C96_sleep_unbounded: for every n an execution in which n cycles pass during one sleep(d); the delay itself is not modelled, when a timer expires is left open."
  },
  {
   "property": "C97",
   "status": "proved",
   "theorems": [
    "C97_left",
    "C97_all",
    "C97_none",
    "C97_invalid"
   ],
   "note": "Proved in full for exit 'all', 'none' and invalid values, for every execution of the loop model (bodies that end; what is given to exec can be awaited). C97_left: for every exit the groups of all calls are executed as after a body that ended normally, so that C37_any applies to exit='any'. C97_replaced is an example where the exception of a group comes out instead of that of the body."
  },
  {
   "property": "C98",
   "status": "partial",
   "theorems": [
    "C98_no_coroutine_partial",
    "C98_results_refuted",
    "C98_any_refuted"
   ],
   "note": "False of the code: __call__ creates the group before it checks its arguments. C98_results_refuted: get_results() has an entry (an empty list) for the rejected call. C98_any_refuted: with exit='any' the block ends although no coroutine has been executed. C98_no_coroutine_partial: all that a rejected call can leave behind is one empty group, the last one."
  },
  {
   "property": "C99",
   "status": "partial",
   "theorems": [
    "C99_all",
    "C99_none",
    "C99_any_waits",
    "C99_any_hangs",
    "C99_any_refuted"
   ],
   "note": "False of the code for exit='any': C99_any_refuted and, in general, C99_any_waits and C99_any_hangs (the test never ends). C99_all and C99_none prove it for the other two."
  },
  {
   "property": "C100",
   "status": "proved",
   "theorems": [
    "C100_at_step"
   ],
   "note": "The fields of the monitor are part of the memory, so any task may change them at any time; C100_at_step is stated for every clock step before the end of a test without cancellation."
  },
  {
   "property": "C101",
   "status": "partial",
   "theorems": [
    "C101_not_started",
    "C101_call_partial",
    "C101_served_partial",
    "C101_start",
    "C101_again_refuted"
   ],
   "note": "False of the code if start_monitor is called again while the call waits: C101_again_refuted (the call keeps the old queue and is never served). C101_call_partial: the call comes back with the first item of the queue that was in use when it was made, and if it still waits at a clock step then this queue is empty; C101_served_partial: if no other task takes from that queue, then at every clock step the call has come back with the oldest of what was in it at the call and has been put since, and it still waits only if there is none; C101_start: start_monitor makes a new empty queue that is in use from then on and leaves the items of the others; C101_not_started: the error before start_monitor."
  },
  {
   "property": "C102",
   "status": "proved",
   "theorems": [
    "C102_value",
    "C102_all_valid",
    "C102_all_valid_no_pins",
    "C102_condition",
    "C102_change",
    "C102_rising",
    "C102_falling"
   ],
   "note": "The triggers as coroutines of the loop model (LTrig_Model); 'looks' are moments at which it is the turn of the calling task, exactly one per cycle. For all items the clock event is the one of the loop (see C47 for bundles of which this is not true)."
  },
  {
   "property": "C103",
   "status": "partial",
   "theorems": [
    "C103_agrees",
    "C103_kept_partial",
    "C103_repeated",
    "C103_refuted",
    "C103_stuck",
    "C103_stuck_refuted"
   ],
   "note": "False of the code. C103_refuted: the connections made before the exception are never taken back (the bundle counts as not bound), so that after correcting the rules a pin is reported as connected more than once; C103_repeated: in general. C103_stuck, C103_stuck_refuted: if a rebind raises while disconnecting, every later bind raises, to any DUT. C103_kept_partial: what a failed first bind keeps (values, modes, bound, callbacks) and exactly which connections it can leave. C103_agrees: the model with the state after an exception agrees with the one of C41-C47."
  },
  {
   "property": "C104",
   "status": "partial",
   "theorems": [
    "C104_called_partial",
    "C104_coroutine",
    "C104_refuted"
   ],
   "note": "False of the code. C104_called_partial: hooks that are functions have been executed on every result before the next dut.Step, in every test whose hooks are functions. C104_refuted, C104_coroutine: a coroutine function marked as monitor hook or agent hook is accepted, its turn comes, and none of its code runs; no error is raised (a driver raises AssertionError for the same mistake, C95)."
  },
  {
   "property": "C105",
   "status": "partial",
   "theorems": [
    "C105_agrees",
    "C105_where",
    "C105_stays_blocked",
    "C105_last_partial",
    "C105_busy",
    "C105_unbound",
    "C105_bound_later",
    "C105_still_applied",
    "C105_refuted",
    "C105_unbound_refuted"
   ],
   "note": "False of the code. C105_where: for every call that raises, which request is to blame and what is left in the queue and blocked. C105_busy, C105_refuted: unless the last request is to blame, every later call raises AssertionError, and C105_still_applied: the requests left are applied by the next steps of the DUT although the call raised. C105_unbound, C105_bound_later, C105_unbound_refuted: the same for a call on a bundle that is not bound. C105_last_partial: with the last request to blame the bundle is idle again. C105_agrees: the model with errors agrees with the one of C53-C55. Assumed: an exception in a callback leaves dut.Step."
  },
  {
   "property": "C106",
   "status": "partial",
   "theorems": [
    "C106_own_partial",
    "C106_own_later_partial",
    "C106_reset",
    "C106_refuted",
    "C106_raised_refuted"
   ],
   "note": "False of the code. C106_own_partial, C106_own_later_partial: in every reachable state in which no order and priority are assigned, a call uses the order and priority of its hooks. C106_reset: when a call is concluded without an exception of the comparison, both are unassigned. C106_refuted: a block is left without error while its dut_first call waits for its hook; the plain call made next finds the order of the block, and its method runs before its model-first hook. C106_raised_refuted: the method given to exec raises; order and priority are never unassigned, and the next plain call uses both."
  },
  {
   "property": "C107",
   "status": "partial",
   "theorems": [
    "C107_cycles_partial",
    "C107_settles_partial",
    "C107_round_partial",
    "C107_starved",
    "C107_refuted"
   ],
   "note": "False of the code, for tasks that await clock events only (no hooks, before the end of the test). C107_cycles_partial: a task that awaits n cycles of a DUT comes back after exactly n steps of this DUT, with any number of clocks. C107_settles_partial, C107_round_partial: which clock advances next, exactly. C107_starved: as long as somebody waits for the clock that is first, no other DUT is stepped. C107_refuted: two DUTs, one task for each; the clock of the second never advances."
  },
  {
   "property": "C108",
   "status": "partial",
   "theorems": [
    "C108_stays_ahead_partial",
    "C108_created_first_partial",
    "C108_monitor_first_partial",
    "C108_env_first_partial",
    "C108_refuted"
   ],
   "note": "False of the code: C108_refuted, a test that creates its environment itself is resumed before the monitors in every cycle. C108_stays_ahead_partial: of two tasks that wait for nothing but the clock, the one that began to wait first does its part of every later cycle first. C108_created_first_partial: so it is for two tasks created before the clock task first runs (run with an env_handle). C108_monitor_first_partial, C108_env_first_partial: whenever the later task runs, the monitor's method has been called in every cycle since it began, including the current one. Missing: tasks that also wait for other things, drivers called through an Executor (which are new tasks), cancellation."
  },
  {
   "property": "C109",
   "status": "proved",
   "theorems": [
    "C109_until_the_end"
   ],
   "note": "Proved for a test that cancels nothing and a monitor whose method and deliveries raise nothing (one clock). C109_until_the_end: once the clock has made a step after the test returned, the calls of the method are exactly one in each cycle from the one after the monitor began up to and including the cycle in which the test returned, every one of them followed by its deliveries, and the monitor task has ended."
  },
  {
   "property": "C110",
   "status": "partial",
   "theorems": [
    "C110_second_block",
    "C110_refuted"
   ],
   "note": "False: C110_refuted, a run of two blocks with one executor. C110_second_block: after a first block with exit='all' in which at least one call was accepted, the second block never ends normally, whatever its body does and gives to the executor: it ends with the exception of the first failing group, no earlier group has a coroutine of the first block, and a group that has one fails with AttributeError; or it is cancelled. That all coroutines of the first block have run to their end is C97_all; that the frame of such a coroutine is None is part of the model (Reuse_Model.used_coro)."
  },
  {
   "property": "C111",
   "status": "partial",
   "theorems": [
    "C111_first_clock_partial",
    "C111_await_partial",
    "C111_refuted"
   ],
   "note": "False of the code, for tasks that await clock events only. C111_first_clock_partial: when the test has returned and nothing but clock loops can run, the loop that comes first decides: if it is that of the DUT for which start_clock was called last, run() returns after one more step of this DUT and of no other; otherwise run() never returns, this DUT is stepped again and again and no other. C111_await_partial: the same seen from the last cycle the test awaits: run() returns if the DUT whose clock comes first, and which the test awaits, is the last one, and never returns otherwise. C111_refuted: start_clock for DUT 0, then for DUT 1; the test awaits one cycle of DUT 0 and returns."
  },
  {
   "property": "C112",
   "status": "partial",
   "theorems": [
    "C112_no_step_partial",
    "C112_all_ended_partial",
    "C112_outcome",
    "C112_left_refuted",
    "C112_returns_refuted",
    "C112_step_refuted"
   ],
   "note": "False as stated: C112_left_refuted (a cancelled task that creates a task leaves it pending), C112_returns_refuted (the test has raised, a task goes on waiting after its cancellation, run() never returns), C112_step_refuted (a hook that catches the cancellation of the clock task: the DUT is stepped on). Proved for all executions: C112_no_step_partial (no step of the DUT if the clock task was not inside a hook when the loop stopped), C112_all_ended_partial (when the loop has stopped again every task that was unfinished has ended; missing: that it stops, and tasks created during the cleanup), C112_outcome (the outcome of run() is not changed by the cleanup)."
  },
  {
   "property": "C113",
   "status": "partial",
   "theorems": [
    "C113_get",
    "C113_known",
    "C113_own_queue",
    "C113_messages",
    "C113_alias_refuted",
    "C113_same_name_refuted"
   ],
   "note": "For agents whose decorated functions are held under their own names, as def makes it (C113_get needs no such condition): C113_known, C113_own_queue (the operations on one monitor method are a history of a single monitor, whatever is done with the others) and C113_messages (with C20). C113_alias_refuted: a name that get_monitor_method finds but start_monitor rejects; C113_same_name_refuted: two monitor methods made from functions of the same name share one queue, a call of the first returns a result of the second. Calls that find no message are not continued (C101 has them)."
  },
  {
   "property": "C114",
   "status": "partial",
   "theorems": [
    "C114_timing",
    "C114_alone_partial",
    "C114_refuted"
   ],
   "note": "False as stated: C114_refuted, a conditional request that process_requests of one bundle has left behind (C54) is applied during a later call for another bundle. C114_alone_partial: while nothing is queued or blocked in the other bundles, the outcomes are those of a bundle that is alone with the DUT, so that C53-C55 apply, and the others stay as they are. C114_timing: requests without conditions are applied one per cycle whatever the other bundles have queued or blocked. Each bundle is bound once (C53_bound_again has several binds)."
  },
  {
   "property": "C115",
   "status": "partial",
   "theorems": [
    "C115_refuses",
    "C115_accepts",
    "C115_bundles",
    "C115_refuted"
   ],
   "note": "False as stated: C115_refuted, lists of bundles do not check the length: a longer list is accepted, a shorter one raises after the first bundles have been written (C115_bundles: for all bundles and lists the surplus has no effect, and too few elements raise). True for lists of signals, in multilevel and flat dictionaries: C115_refuses (other length, no length, a dictionary: which exception, no pin written), C115_accepts. Proved for a dictionary with the one entry, on the level of the bound bundle."
  }
 ]
}