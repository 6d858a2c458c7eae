{"id": "C01", "title": "TwoBitsCounter is a two-bit saturating counter", "statement": "For a TwoBitsCounter created with any initial value in 0..3, after any sequence of update(taken) calls the counter is the initial value moved up by one per taken update and down by one per not-taken update, clipped to [0,3] at every move; get_prediction() is 1 exactly when the counter is 2 or 3; after two consecutive updates with the same outcome get_prediction() returns that outcome, whatever the history.", "quantifier": "every initial value in 0..3 and every finite sequence of update outcomes", "why_tests_cant": "update sequences are unbounded", "anchors": ["toffee/utils/two_bits_counter.py: TwoBitsCounter.update, TwoBitsCounter.get_prediction"]}
{"id": "C02", "title": "PLRU victim is always an existing way", "statement": "For every number of ways, after any history of update(way) calls with existing ways, get() returns an existing way (0 <= way < ways_num) and leaves the replacement state unchanged.", "quantifier": "every ways_num >= 1 and every finite history of updates", "why_tests_cant": "unbounded number of ways and histories; the failure for non-power-of-two sizes needs a particular history", "anchors": ["toffee/utils/plru.py: PLRU.__init__, PLRU.update, PLRU.get"]}
{"id": "C03", "title": "PLRU never picks the most recently used way", "statement": "With at least two ways (power of two), right after update(w) get() returns a way different from w, and it differs from w already in the most significant bit (it lies in the other half of the ways).", "quantifier": "every power-of-two number of ways >= 2, every state, every way", "why_tests_cant": "all sizes and all states", "anchors": ["toffee/utils/plru.py: PLRU.update, PLRU.get"]}
{"id": "C04", "title": "PLRU evicts every way once per round", "statement": "For 2^k ways, starting from any replacement state, 2^k consecutive evictions (w = get(); update(w)) return each of the 2^k ways exactly once.", "quantifier": "every k and every replacement state", "why_tests_cant": "exponentially many states, unbounded k", "anchors": ["toffee/utils/plru.py: PLRU.update, PLRU.get"]}
{"id": "C05", "title": "LFSR_64 stays a 64-bit generator and never dies", "statement": "For every integer seed (also negative or wider than 64 bits) the exposed value is always in [0, 2^64); the step is a permutation of the 64-bit states that shifts right by one and inserts bit0^bit1^bit3^bit4 at bit 63; the value is 0 after n steps iff the seed was a multiple of 2^64.", "quantifier": "every integer seed and every number of steps", "why_tests_cant": "2^64 states and unbounded seeds", "anchors": ["toffee/utils/lfsr_64.py: LFSR_64"]}
{"id": "C06", "title": "LFSR_64 has full period", "statement": "From every seed that is not a multiple of 2^64, the sequence of exposed values first returns to its starting value after exactly 2^64-1 steps (so every non-zero 64-bit value is produced once per period).", "quantifier": "every non-degenerate seed, every step count", "why_tests_cant": "the period is 2^64-1 steps long: it cannot be run", "anchors": ["toffee/utils/lfsr_64.py: LFSR_64.step"]}
{"id": "C07", "title": "Delayer returns the sample taken exactly `delay` samples ago", "statement": "For every delay d >= 0 and every sequence of sampled values, Delayer.value is None until d+1 samples have been taken and afterwards is the value sampled d samples before the latest one; at most d+1 samples are retained; a negative delay is rejected at construction.", "quantifier": "every delay and every sequence of sampled values", "why_tests_cant": "unbounded delays and sequences", "anchors": ["toffee/delay.py: Delayer.__init__, Delayer.sample, Delayer.value"]}
{"id": "C08", "title": "Delayer delays by clock cycles", "statement": "When a Delayer is used under the toffee clock, its value is the signal value of exactly `delay` clock cycles ago, whatever reference-model hooks run in the meantime.", "quantifier": "every schedule of driver calls / hooks over the cycles", "why_tests_cant": "depends on which cycles need a second scheduling pass", "anchors": ["toffee/delay.py: __process_delayer", "toffee/asynchronous.py: execute_all_coros, __execute_callback", "toffee/executor.py: __execute_priority_tasks"]}
{"id": "C09", "title": "Coverage bin counters count exactly", "statement": "For every CovGroup and every history of samples, the `hints` of a bin is the number of effective samples (since the point was added or last reset) at which all of the bin's conditions held for the target value at that time.", "quantifier": "every set of points/bins, every stream of target values, every history of operations", "why_tests_cant": "histories and bin predicates are unbounded", "anchors": ["toffee/funcov.py: CovGroup.sample, CovGroup.__check__, CovGroup.reset_point"]}
{"id": "C10", "title": "Covered means every bin was hit", "statement": "After any history of group operations in which no bin raised, is_point_covered(p) is true exactly when p was sampled since its creation/reset and each of its bins has a positive counter, and is_all_covered() is true exactly when every point of the group is covered.", "quantifier": "every history of add/delete/reset/sample/clear/resume operations", "why_tests_cant": "cached flags may go stale only after particular histories", "anchors": ["toffee/funcov.py: CovGroup.is_point_covered, CovGroup.is_all_covered, CovGroup.sample"]}
{"id": "C11", "title": "Automatic stop of sampling is exact and harmless", "statement": "sample() is skipped only if sampling was stopped or every point is covered and every point with bins has once=True; when skipped nothing but the call counter changes; a skipped group stays covered; a group with a once=False point (with at least one bin) is never skipped automatically.", "quantifier": "every history of operations without raising bins", "why_tests_cant": "state-dependent over unbounded histories", "anchors": ["toffee/funcov.py: CovGroup.sample, CovGroup.sample_stoped"]}
{"id": "C12", "title": "A covered once-point is no longer evaluated", "statement": "If a point was added with once=True then, once it is covered, later samples no longer evaluate its bins nor change its counters (documentation of `once`).", "quantifier": "every group and every history", "why_tests_cant": "depends on the other points of the group", "anchors": ["toffee/funcov.py: CovGroup.sample, CovGroup.__check__", "docs/source/cases/cov.md"]}
{"id": "C13", "title": "Coverage report agrees with the group state", "statement": "as_dict() lists the points in insertion order with their bins in order; bin_num_total/bin_num_hints/point_num_total/point_num_hints are the numbers of bins, bins with positive counters, points and covered points; 0 <= hints <= total; all points hit in every bin implies the hint number equals the total.", "quantifier": "every reachable group state", "why_tests_cant": "all group shapes", "anchors": ["toffee/funcov.py: CovGroup.as_dict"]}
{"id": "C14", "title": "Editing one coverage point does not disturb the others", "statement": "add_watch_point, del_point and reset_point change only the named point (counters, flags, order of the others are unchanged); a rejected call (duplicate name, unknown name, non-callable bin) raises ValueError and changes nothing.", "quantifier": "every group state and every argument", "why_tests_cant": "all states, including rejected calls", "anchors": ["toffee/funcov.py: CovGroup.add_watch_point, CovGroup.del_point, CovGroup.reset_point"]}
{"id": "C15", "title": "A raising bin does not disable later sampling", "statement": "If a bin callable raises during sample(), the group is not silently left in a state where later sample() calls are ignored although sampling would otherwise have continued.", "quantifier": "every point at which a bin may raise", "why_tests_cant": "exception points", "anchors": ["toffee/funcov.py: CovGroup.sample"]}
{"id": "C16", "title": "Sampling can be stopped and resumed", "statement": "stop_sample() makes later sample() calls leave all points unchanged until resume_sample(); after resume_sample() the next sample() evaluates every point once.", "quantifier": "every group state", "why_tests_cant": "all states", "anchors": ["toffee/funcov.py: CovGroup.stop_sample, CovGroup.resume_sample, CovGroup.init"]}
{"id": "C17", "title": "mark_function marks exactly the matched bins", "statement": "mark_function(point, functions, patterns) adds the given functions to exactly the bins selected by the patterns (exact name, else wildcard, else regex prefix match), never removes a mark, touches no other point, and if some pattern selects no bin it raises before changing anything.", "quantifier": "every group, every pattern list, every matcher", "why_tests_cant": "all pattern sets", "anchors": ["toffee/funcov.py: CovGroup.mark_function"]}
{"id": "C18", "title": "Predefined coverage conditions mean what they say", "statement": "Eq/Ne, Gt/Le, Lt/Ge, In/NotIn are complementary on every integer target, IsInRange(l,h) holds iff l <= v <= h, and a list of conditions holds iff all of them hold; reading through an object with a `value` attribute gives the same result as the bare value.", "quantifier": "every integer value and bound", "why_tests_cant": "infinite domain", "anchors": ["toffee/funcov.py: CovEq..CovIsInRange, CovCondition.__call__"]}
{"id": "C19", "title": "Ports are bounded FIFO queues that drop the newest value when full", "statement": "For every port capacity (positive, or -1 for unbounded) and every interleaving of deliveries and reads, the values read are, in order, exactly the delivered values that were accepted; a delivery is rejected exactly when the port then holds maxsize values; the port never holds more than maxsize values; capacity 0 and other negatives are rejected at creation.", "quantifier": "every capacity and every interleaving of puts and gets", "why_tests_cant": "unbounded interleavings", "anchors": ["toffee/model.py: Port, DriverPort, MonitorPort, AgentPort"]}
{"id": "C20", "title": "Monitor message queue keeps the oldest messages in order", "statement": "After start_monitor(name, maxsize), the messages returned by the monitor method are the non-None monitor results in order, minus those that arrived when the queue held maxsize messages; monitor_size is the number of undelivered messages and never exceeds maxsize; results produced before start_monitor are not delivered. When the queue is full the monitor keeps running.", "quantifier": "every stream of monitor results and every interleaving of reads, every maxsize", "why_tests_cant": "unbounded streams", "anchors": ["toffee/_base_agent.py: Monitor.__monitor_forever, Monitor.enable_get_queue, Monitor.get_queue_size", "toffee/agent.py: start_monitor, monitor_size"]}
{"id": "C21", "title": "Hook and port names resolve to the documented method path", "statement": "For driver/monitor hooks and ports: an explicit path is used as is; agent_name plus driver/monitor name gives 'agent.method'; agent_name alone gives 'agent.<own name>'; no argument gives the own name with '__' replaced by '.', so a name 'agent__method' denotes agent.method whenever the agent name does not contain '__' or end with '_' and the method name contains no '__'; a hook and a port with the same arguments and own name resolve to the same path; contradictory arguments are rejected.", "quantifier": "every combination of argument strings and names", "why_tests_cant": "infinitely many strings", "anchors": ["toffee/model.py: driver_hook, monitor_hook, DriverPort.get_path, MonitorPort.get_path, agent_hook"]}
{"id": "C22", "title": "After a successful attach the dispatch of every method is exact", "statement": "After env.attach(model) succeeds, a driver method m of agent a is dispatched to the driver hook (port) of the model iff that hook's (port's) path is 'a.m', and to exactly the agent hooks (ports) that name agent a or the path 'a.m'; likewise for monitors; models attached earlier keep their dispatch entries, and models are consulted in the order of attachment.", "quantifier": "every env (agents, methods) and every model", "why_tests_cant": "all shapes of env and model", "anchors": ["toffee/env.py: Env.attach, __inject_all, __inject_driver_method, __inject_monitor_method", "toffee/model.py: get_driver_hook, get_driver_port"]}
{"id": "C23", "title": "attach rejects a model with a hook or port that matches nothing", "statement": "For a freshly created model class and instance, env.attach(model) raises ValueError if some driver/monitor hook or driver/monitor port has a path that is not a driver/monitor method of the env, if two hooks (or two ports) have the same path, if a `methods` entry or an `agents` entry does not exist; if every hook and port resolves to its own existing method, attach succeeds.", "quantifier": "every env and every fresh model", "why_tests_cant": "all shapes", "anchors": ["toffee/env.py: Env.__ensure_model_match", "toffee/model.py: Model.ensure_all_matched"]}
{"id": "C24", "title": "Matching is judged against the env being attached", "statement": "attach's verdict depends only on the env and the model's declarations: a hook or port that was matched in an earlier attach (of this instance or another instance of the same class, possibly to another env) but matches nothing in this env is still rejected.", "quantifier": "every history of attach calls", "why_tests_cant": "depends on attach history shared through class-level function objects", "anchors": ["toffee/env.py: Env.attach", "toffee/model.py: Model.collect_all, Model.clear_matched, agent_hook, driver_hook"]}
{"id": "C25", "title": "unattach undoes attach", "statement": "env.unattach(model) after env.attach(model) removes all dispatch entries of the model and leaves other models attached; re-attaching a model to a second env detaches it from the first.", "quantifier": "every env, every set of attached models", "why_tests_cant": "all attachment histories", "anchors": ["toffee/env.py: Env.unattach, Env.attach", "toffee/model.py: Model.is_attached"]}
{"id": "C26", "title": "A rejected attach leaves the env unchanged", "statement": "If env.attach(model) raises, no driver or monitor of the env dispatches to the model.", "quantifier": "every env and every rejected model", "why_tests_cant": "needs the failure path of every shape", "anchors": ["toffee/env.py: Env.attach"]}
{"id": "C27", "title": "Agent hooks and agent ports can name their agents freely", "statement": "An agent hook or agent port whose agent_name, agents or methods all exist in the env is accepted by attach, independent of the name of the attribute that holds it.", "quantifier": "every env and every declaration", "why_tests_cant": "all combinations of naming arguments", "anchors": ["toffee/env.py: __is_agent_hook_contain_method, __is_agent_port_contain_method, __ensure_model_match", "toffee/model.py: AgentPort.get_path"]}
{"id": "C28", "title": "Hooks of one cycle run once each, in priority order", "statement": "All hook invocations registered before a scheduling pass are executed in that pass exactly once each, by non-decreasing priority number, and in registration order among equal priorities; the pass asks for another pass iff some executed hook belongs to a driver call; afterwards no registration remains.", "quantifier": "every multiset of registrations", "why_tests_cant": "all registration orders and priorities", "anchors": ["toffee/executor.py: add_priority_task, __execute_priority_tasks"]}
{"id": "C29", "title": "Model-first hooks run before the driver method, dut-first hooks after it", "statement": "For every driver call, every schedule of other tasks and every assignment of hooks: the driver body starts only after all its model_first hooks have run; dut_first hooks of the call run only after the body has returned; each hook of the call runs exactly once per call.", "quantifier": "every driver call in every schedule of arbitrary concurrent tasks", "why_tests_cant": "interleavings of concurrent calls", "anchors": ["toffee/_base_agent.py: Driver.process_driver_call", "toffee/executor.py: __execute_priority_tasks"]}
{"id": "C30", "title": "Every reference result is compared with the DUT result", "statement": "For every driver call, each hook that returned a non-None value is compared with the value returned by the driver body, in the order the hooks ran, up to the first mismatch; a mismatch raises AssertionError; no comparison happens for None; with all results equal to the DUT result no error is raised.", "quantifier": "every list of hook results and every DUT result", "why_tests_cant": "all result lists", "anchors": ["toffee/_base_agent.py: Driver.process_driver_call", "toffee/_compare.py: compare_once"]}
{"id": "C31", "title": "Executor priority and sche_order apply to the call they were given for", "statement": "exec(call, priority=p, sche_order=o) makes the hooks of exactly that call run with priority p and order o, independent of the other calls in the same or other groups.", "quantifier": "every list of calls in a group", "why_tests_cant": "depends on interleaving with the next call of the same driver", "anchors": ["toffee/executor.py: Executor.__sequential_execution_all", "toffee/_base_agent.py: Driver.process_driver_call"]}
{"id": "C32", "title": "Driver ports and agent ports receive the bound call arguments", "statement": "Every driver call that Python accepts delivers to each matching port (with room in it) the call's arguments bound to parameter names with defaults filled in (the single bare value if the method has one parameter), paired with the method path for agent ports; a model with a port for the method gets no hook call for it.", "quantifier": "every signature, every mix of positional/keyword arguments", "why_tests_cant": "all signatures and argument mixes", "anchors": ["toffee/_base_agent.py: Driver.__get_args_dict, Driver.__drive_single_model_ports, Driver.process_driver_call"]}
{"id": "C33", "title": "The DUT clock advances only when no task can run", "statement": "Whenever the clock task calls dut.Step, every other unfinished task is suspended on something that has not happened yet: no task that could still run in this cycle is left in the event loop, for arbitrary user coroutines.", "quantifier": "every set of tasks, arbitrary programs over events, queues, tasks and sleep(0), at every Step", "why_tests_cant": "all schedules of arbitrary programs", "anchors": ["toffee/asynchronous.py: __clock_loop, execute_all_coros, __other_tasks_done, __has_unwait_task, __run_once, Event, Queue"]}
{"id": "C34", "title": "Awaiting the clock for n cycles takes exactly n DUT steps", "statement": "A task that awaits ClockCycles(x, n) (or bundle.step(n)) when k steps have been performed resumes when exactly k+n steps have been performed, in every schedule.", "quantifier": "every n, every set of concurrent tasks", "why_tests_cant": "all schedules", "anchors": ["toffee/triggers.py: ClockCycles", "toffee/bundle.py: Bundle.step", "toffee/asynchronous.py: Event.wait, __clock_loop"]}
{"id": "C35", "title": "gather returns results in argument order", "statement": "toffee.gather(c1..cn) returns when all have finished and its result list is [result of c1, ..., result of cn] whatever the completion order; an exception of the first failing coroutine in argument order is raised to the caller.", "quantifier": "every list of coroutines and every completion order", "why_tests_cant": "all completion orders", "anchors": ["toffee/asynchronous.py: gather"]}
{"id": "C36", "title": "Executor runs each group in order and reports results under its key", "statement": "Coroutines added under one group key run one after another in the order they were added, with no overlap; the default key is the coroutine name, or 'agent.method' for driver calls; get_results() after exit='all' or wait_all() maps every group key, in first-use order, to the single result or the list of results of that group in order.", "quantifier": "every sequence of exec calls, every completion order", "why_tests_cant": "all group structures", "anchors": ["toffee/executor.py: Executor.__call__, __sequential_execution_all, __set_results, __get_sche_group"]}
{"id": "C37", "title": "Executor exit conditions", "statement": "The `async with Executor(exit=...)` block ends: for 'all' only after every coroutine has finished, for 'any' only after at least one group has finished, for 'none' without waiting; any other value raises ValueError; wait_all() returns only after all groups have finished and is idempotent.", "quantifier": "every set of groups, every schedule", "why_tests_cant": "all schedules", "anchors": ["toffee/executor.py: Executor.__execute, __exit_all, __exit_any, __exit_none, wait_all"]}
{"id": "C38", "title": "Test end: everything runnable is finished, then one last cycle", "statement": "After the test coroutine returns, run() returns its result; before that, all other tasks that could still run in the current cycle run, exactly one more dut.Step is made, and all other tasks are cancelled before that step.", "quantifier": "every test and every set of background tasks", "why_tests_cant": "all schedules at the end of the test", "anchors": ["toffee/asynchronous.py: main_coro, execute_all_coros, cancel_all_tasks"]}
{"id": "C39", "title": "Value/AllValid/Condition return at the first matching cycle", "statement": "Value(pin,v,delay), AllValid(*pins,delay), Condition(item,f,delay) return at the first cycle n >= delay (counted in clock waits) at which the condition holds, and never return if it never holds.", "quantifier": "every waveform and every delay", "why_tests_cant": "infinite waveforms", "anchors": ["toffee/triggers.py: Value, AllValid, Condition"]}
{"id": "C40", "title": "Edge triggers detect the first edge", "statement": "RisingEdge returns at the first cycle n >= 1 with pin = 0 at n-1 and non-zero at n; FallingEdge at the first n >= 1 with non-zero at n-1 and 0 at n; Change at the first n >= 1 where the pin differs from the previous cycle; none returns if there is no such cycle.", "quantifier": "every waveform", "why_tests_cant": "infinite waveforms", "anchors": ["toffee/triggers.py: Change, RisingEdge, FallingEdge"]}
{"id": "C41", "title": "bind connects exactly the pins the rules select", "statement": "After bundle.bind(dut), a bundle signal is connected to a DUT pin only if the pin's name, translated by the prefix/regex/dict rules along the path to that signal, is the signal's name; and every pin whose translated name reaches a signal (searching own signals, then signal lists, then sub-bundles in order, then bundle lists) is routed to that signal; when exactly one pin is routed to a signal the signal is that pin.", "quantifier": "every bundle tree (any nesting), every DUT, every rule (regex as an arbitrary partial function)", "why_tests_cant": "all trees and naming schemes", "anchors": ["toffee/bundle.py: Bundle.bind, __bind_from_signal_list, PrefixBindMethod.bind, RegexBindMethod.bind, DictBindMethod.bind, SignalList.bind_signal, __revert_signal_name"]}
{"id": "C42", "title": "A pin goes to at most one place; unconnected signals are inert", "statement": "One bind attaches a DUT pin to at most one signal of the bundle tree; pins that reach no signal are reported back with their original names; a signal that found no pin reads None and ignores writes (default) or raises AttributeError on access (unconnected_signal_access=False).", "quantifier": "every bundle tree and DUT", "why_tests_cant": "all trees", "anchors": ["toffee/bundle.py: __bind_from_signal_list, __detect_missing_signals, DummySignal, UnconnectedSignal"]}
{"id": "C43", "title": "detect_connectivity predicts bind", "statement": "detect_connectivity(name) is true exactly when binding the bundle to a DUT having a pin of that name connects this pin to some signal of the bundle, and it changes no signal of the bundle.", "quantifier": "every bundle tree, every name", "why_tests_cant": "all trees and names", "anchors": ["toffee/bundle.py: Bundle.detect_connectivity"]}
{"id": "C44", "title": "detect_specific_connectivity predicts the specific connection", "statement": "detect_specific_connectivity(name, path) is true exactly when a DUT pin of that name would be connected to the bundle signal at that path.", "quantifier": "every bundle tree, name and path", "why_tests_cant": "all trees, names and paths", "anchors": ["toffee/bundle.py: Bundle.detect_specific_connectivity, __bind_from_signal_list"]}
{"id": "C45", "title": "Connection accounting is exact", "statement": "After binding any list of (not yet bound) bundles to a DUT, detect_unconnected_signals lists exactly the pins no bundle connects, and detect_multiple_connections exactly the pins connected by at least two bundles.", "quantifier": "every list of bundles and every DUT", "why_tests_cant": "all combinations of bundles", "anchors": ["toffee/bundle.py: detect_unconnected_signals, detect_multiple_connections, __update_signal_info"]}
{"id": "C46", "title": "Rebinding replaces the previous bind", "statement": "bind on an already bound bundle fully replaces the earlier bind: connection accounting and every signal are as if only the second bind had happened.", "quantifier": "every bundle tree, every pair of DUTs", "why_tests_cant": "all trees, all pairs", "anchors": ["toffee/bundle.py: Bundle.bind, __unbind_all, __remove_signal_attr"]}
{"id": "C47", "title": "bundle.step follows the clock of the bound DUT", "statement": "After bind(dut), if any signal of the bundle (at any level) is connected, bundle.step() waits for the clock of that DUT; after rebinding to another DUT it waits for the new DUT's clock.", "quantifier": "every bundle tree, every bind history", "why_tests_cant": "all trees and bind histories", "anchors": ["toffee/bundle.py: Bundle.step, __update_signal_info, __bind_from_signal_list"]}
{"id": "C48", "title": "assign and as_dict are inverse (multilevel)", "statement": "For every bound bundle, assign(as_dict()) changes no pin; after assign(d) of a full dictionary, as_dict() equals d; both for multilevel=True and any nesting with signal lists and bundle lists.", "quantifier": "every bundle tree, every pin valuation, every dictionary of the bundle's shape", "why_tests_cant": "all shapes and values", "anchors": ["toffee/bundle.py: Bundle.as_dict, Bundle.assign, SignalList.assign, BundleList.assign"]}
{"id": "C49", "title": "Flat dictionaries round-trip", "statement": "For every bound bundle, assign(as_dict(multilevel=False), multilevel=False) changes no pin and logs no error, and flat assignment of 'a.b.c' writes exactly the pin at that path.", "quantifier": "every bundle tree, every valuation", "why_tests_cant": "all shapes", "anchors": ["toffee/bundle.py: Bundle.as_dict, Bundle.assign"]}
{"id": "C50", "title": "'*' assigns all input signals not named explicitly and the dictionary stays usable", "statement": "assign({'*': v, ...}) sets every input pin of the bundle that is not explicitly assigned to v and the explicit ones to their own values; output pins not explicitly named are untouched; the caller's dictionary is not modified.", "quantifier": "every bundle tree, every dictionary", "why_tests_cant": "all shapes", "anchors": ["toffee/bundle.py: Bundle.assign, Bundle.set_all"]}
{"id": "C51", "title": "assign touches only what it names", "statement": "assign(d) without '*' changes no pin other than those of signals named by d; unknown keys are logged and ignored; if an exception is raised, the pins not named by d are still unchanged.", "quantifier": "every bundle tree, every dictionary", "why_tests_cant": "all shapes, including error paths", "anchors": ["toffee/bundle.py: Bundle.assign"]}
{"id": "C52", "title": "set_all and randomize_all touch exactly the driveable pins", "statement": "set_all(v) writes v to every connected non-output pin of the tree and nothing else; randomize_all writes to every connected non-output, non-excluded pin a value in the requested range, or in [0, 2^width-1] (width 0 counts as 1), and nothing else.", "quantifier": "every bundle tree, every random function, every exclusion list", "why_tests_cant": "all trees and all random functions", "anchors": ["toffee/bundle.py: Bundle.set_all, Bundle.randomize_all, Bundle.all_signals"]}
{"id": "C53", "title": "process_requests applies one request per cycle, in order", "statement": "process_requests([r0..rn]) on an idle bundle bound once applies the requests in list order, one per DUT rising edge, each exactly once; unconditional request i is applied in the i-th cycle.", "quantifier": "every request list", "why_tests_cant": "all lists", "anchors": ["toffee/bundle.py: Bundle.process_requests, Bundle.___dut_call_on_rise__"]}
{"id": "C54", "title": "A conditional request blocks until its condition holds", "statement": "A request with a condition function is applied in the first cycle >= its turn in which the condition is true; later requests wait; process_requests does not return before all requests have been applied.", "quantifier": "every request list and every condition behaviour over time", "why_tests_cant": "all lists and condition waveforms", "anchors": ["toffee/bundle.py: Bundle.process_requests, Bundle.___dut_call_on_rise__"]}
{"id": "C55", "title": "process_requests returns one entry per request that asked for data", "statement": "The returned list has, in order, one entry for each request whose data has __return_bundles__, with the bundle values right after that request was applied and the cycle of application — also for requests produced by callables, and not for others.", "quantifier": "every request list", "why_tests_cant": "all lists", "anchors": ["toffee/bundle.py: Bundle.process_requests, Bundle.___dut_call_on_rise__"]}
{"id": "C56", "title": "Bundle instances do not share state", "statement": "Two instances of the same Bundle class bound to different DUTs are independent: binding or driving one does not change the other's signals, at any nesting, including signal lists and bundle lists.", "quantifier": "every class shape, every interleaving of bind operations", "why_tests_cant": "all class shapes", "anchors": ["toffee/bundle.py: Bundle.__init__, SignalList.from_signallist, BundleList.from_bundlelist"]}
{"id": "C57", "title": "Signal enumeration and rules describe the binding", "statement": "all_signals() yields every signal of the tree exactly once with its dotted path; for prefix-only trees all_signals_rule() maps every path to the concatenation of the prefixes and the signal name, and a DUT pin with this name is routed to that signal unless an earlier signal claims it.", "quantifier": "every bundle tree", "why_tests_cant": "all trees", "anchors": ["toffee/bundle.py: Bundle.all_signals, Bundle.all_signals_rule, __get_rule_string"]}
{"id": "C58", "title": "Log statistics count every record once and log ids are rendered once", "statement": "For every sequence of records at or above the level, the severity statistics equal the numbers of records per severity, the id statistics the numbers per log id; every handler renders a record's id as '(id: x)' exactly once; get_stats() returns the statistics.", "quantifier": "every sequence of records, every handler set", "why_tests_cant": "all sequences", "anchors": ["toffee/logger.py: StatsHandler.emit, StatsHandler.get_stats, ToffeeFormatter.format, setup_logging"]}
{"id": "C59", "title": "Generated bundle code declares exactly the selected signals within the line width", "statement": "The class body generated by gen_bundle_code_* is one assignment whose left side is the selected names in sorted order and whose right side is Signals(n) with n the number of names; every generated line is at most max_width wide if each single name and the right side fit.", "quantifier": "every list of names and every max_width", "why_tests_cant": "all name lists and widths", "anchors": ["scripts/bundle_code_gen.py: __gen_bundle_code, gen_bundle_code_from_prefix, gen_bundle_code_from_dict"]}
{"id": "C60", "title": "Example adder reference model is a 64-bit adder", "statement": "For all 64-bit a, b and carry-in, the model's (sum, cout) satisfies sum + 2^64*cout = a + b + cin with sum < 2^64 and cout in {0,1}.", "quantifier": "all operands", "why_tests_cant": "2^129 inputs", "anchors": ["example/adder/env/refmodel.py", "README.md"]}
{"id": "C61", "title": "Monitors run once per cycle and every result is forwarded", "statement": "A monitor method that does not wait is called exactly once per clock cycle; each non-None result is offered, in order, to every matching port and hook of every attached model, and None results are not delivered. Hooks always get it; a bounded port takes it exactly when it has room at that moment (an unbounded one always), and nothing else is put there.", "quantifier": "every stream of monitor results, every set of attached models", "why_tests_cant": "unbounded streams and schedules", "anchors": ["toffee/_base_agent.py: Monitor.__monitor_forever, Monitor.process_monitor_call"]}
{"id": "C62", "title": "Queue and Event deliver to waiters in order and lose nothing", "statement": "For toffee Queue: in every interleaving of tasks the items returned by get() are exactly the put items in order, each once; a waiting getter is resumed when an item is available. For Event: set() releases every current waiter.", "quantifier": "every interleaving of tasks", "why_tests_cant": "all schedules", "anchors": ["toffee/asynchronous.py: Event, Queue"]}
{"id": "C63", "title": "set_write_mode reaches exactly the driveable pins and survives bind", "statement": "set_write_mode(m) sets the write mode of every connected non-output pin of the tree and of no other pin; when set before bind it is applied to the pins connected by bind.", "quantifier": "every bundle tree, every mode", "why_tests_cant": "all trees", "anchors": ["toffee/bundle.py: set_write_mode, __set_all_signals_write_mode, bind"]}
{"id": "C64", "title": "PLRU protects a used way", "statement": "With 2^k ways, after update(w) the way w is not returned by get() as long as fewer than k further updates have happened, whatever ways those update.", "quantifier": "every k, every earlier history, every way, every list of fewer than k later updates", "why_tests_cant": "unbounded sizes and histories", "anchors": ["toffee/utils/plru.py: PLRU.update, PLRU.get"]}
{"id": "C65", "title": "A failing hook leaves nothing behind for the next run", "statement": "If a hook raises during a scheduling pass, no hook registration of that pass survives into a later run (a later test in the same process starts with an empty list).", "quantifier": "every list of registrations and every raising hook", "why_tests_cant": "exception point within a pass", "anchors": ["toffee/executor.py: __priority_tasks, __execute_priority_tasks"]}
{"id": "C66", "title": "A single condition can be added as a point", "statement": "add_watch_point(target, cond) with a single callable instead of a dict creates a point with one bin \"anonymous\" (documentation of `bins`), for every callable, with or without an explicit name.", "quantifier": "every group state, every callable, every name including the default", "why_tests_cant": "the default name path is one combination among many argument shapes; only a proof over all argument shapes shows which are accepted", "anchors": ["toffee/funcov.py:CovGroup.add_watch_point"]}
{"id": "C67", "title": "Asking a port for its path does not change what it matches", "statement": "Calling get_path() on a driver or monitor port, at any time and any number of times, does not change which method the port is matched to by a later attach.", "quantifier": "every port declaration and every sequence of get_path() calls and attach attempts", "why_tests_cant": "all call sequences; the effect appears only at a later attach", "anchors": ["toffee/model.py: DriverPort.get_path, MonitorPort.get_path, Model.collect_all"]}
{"id": "C68", "title": "One decorator object can be applied to several functions", "statement": "h = driver_hook(...) (or monitor_hook(...)) applied to functions f1, f2, ... gives each function the path it would get from its own decorator call.", "quantifier": "every argument combination and every list of functions", "why_tests_cant": "all argument combinations and orders", "anchors": ["toffee/model.py: driver_hook, monitor_hook"]}
{"id": "C69", "title": "Binding a new bundle never raises", "statement": "bind(dut) on a bundle that has not been bound yet returns normally for every DUT, whatever rules the bundle tree uses and whichever signals find no pin.", "quantifier": "every bundle tree with any prefix, regex (as a total partial-match function) and dict rules, every DUT", "why_tests_cant": "all trees, rules and DUTs; the failure needs a particular relation between the names in a dict rule", "anchors": ["toffee/bundle.py: Bundle.bind, Bundle.__detect_missing_signals, Bundle.__get_rule_string, Bundle.detect_specific_connectivity"]}
{"id": "C70", "title": "A component's main begins after exactly one clock step", "statement": "When a Component is created, its main() begins after exactly one dut.Step counted from the moment its task first runs, whether the clock was started before or is started later by another task; counted from the creation by a task, main() begins after the first and before the second dut.Step that follows, unless the test ends or the task is cancelled.", "quantifier": "every test program with any number of tasks, every reachable state in which a component is created or its task begins, every later state, every main", "why_tests_cant": "all interleavings of tasks, all points at which the clock may be started", "anchors": ["toffee/asynchronous.py: Component.__init__, Component.__main_wrapper, start_clock, __clock_loop"]}
{"id": "C71", "title": "A block with exit='any' ends once all its groups have ended", "statement": "With exit='any' the block of an Executor ends at the latest when the tasks of all its groups have ended, in whatever way (result or exception).", "quantifier": "every executor block with exit='any', every set of groups, every execution of the tasks", "why_tests_cant": "all combinations of failing groups and all interleavings; a hang cannot be observed by a test", "anchors": ["toffee/executor.py: Executor.__exit_any, Executor.__sequential_execution_all, Executor.__aexit__"]}
{"id": "C72", "title": "The clock never stalls, and run() returns", "statement": "While a test is running with a clock, dut.Step is called again and again: the only thing that can keep the next clock cycle from happening is another task that keeps running in the current one; a task waiting for a clock cycle is never left waiting while nothing else runs. When the test has returned and the cancelled tasks have ended, toffee.run() returns.", "quantifier": "every test, every infinite execution of the event loop (any order of set iteration, any firing of timers), every hook that does not itself wait", "why_tests_cant": "a liveness property: no finite run shows that the clock goes on for ever, and all combinations of the clock loop's waits (emptied ready queue, hooks, gathered tasks, stopping loop) matter", "anchors": ["toffee/asynchronous.py: __clock_loop, execute_all_coros, __has_unwait_task, __other_tasks_done, cancel_all_tasks, main_coro, run"]}
{"id": "C73", "title": "Elements of signal lists and bundle lists are never mixed up", "statement": "The element names that SignalList and BundleList derive from a format by default are pairwise different, whatever the format and the length; and no pin name fits two elements of a bundle list, even if the prefix of one element is the beginning of the prefix of another (v1, v10). After bind, signal x of element k is connected exactly to the pin named by the format with k for '#', followed by x.", "quantifier": "every format, every length, every class of bundles whose names do not begin with a digit, every DUT", "why_tests_cant": "all formats (several '#', digits next to '#') and lengths; mix-ups appear only from ten elements on", "anchors": ["toffee/bundle.py: SignalList.__init__, BundleList.__init__, Bundle.from_prefix"]}
{"id": "C74", "title": "Hooks cost no clock cycle", "statement": "Every hook registered for execution by the clock loop has been called before the next dut.Step. A driver call therefore starts its method in the very clock cycle in which it was called, however many model-first hooks there are, and in the cycle in which the method returns all dut-first hooks are called and the comparison is made, also if the test itself returns in that cycle. The exceptions are a call that raised in that cycle and cancellation.", "quantifier": "every driver call with any set of hooks, in every schedule of arbitrary concurrent tasks, for hooks that are ordinary functions", "why_tests_cant": "all interleavings of concurrent calls and of the clock loop's waits; a hook served one cycle late would only show in some of them", "anchors": ["toffee/asynchronous.py: __clock_loop, execute_all_coros, __execute_priority_tasks, add_priority_task", "toffee/_base_agent.py: Driver.process_driver_call"]}
{"id": "C75", "title": "A test that raises ends the run", "statement": "When the test raises, run() fails with that very exception and never with another one or with a value. The DUT makes at most two more steps after that. The loop that runs the test stops whatever the other tasks, the hooks and the clock loop are doing or waiting for, provided no task runs for ever without awaiting anything. (What happens to the tasks that are still pending then is the subject of C112.)", "quantifier": "every test, every set of concurrent tasks and hooks, every schedule, every exception", "why_tests_cant": "needs every state the other tasks, the hooks and the clock loop can be in when the exception is raised, and that no execution goes on for ever", "anchors": ["toffee/asynchronous.py: main_coro, run, __clock_loop"]}
{"id": "C76", "title": "run(test, env_handle) reports the outcome of the test", "statement": "With an environment handle, the test is called with what the handle returned, and not before the handle has returned. When the run is over it has the outcome of the test: the value the test returned, or the very exception it failed with. If the handle raises, the run fails with that exception and the test is never called by the run.", "quantifier": "every environment handle (which may start tasks and the clock), every test, every set of concurrent tasks, every schedule, as long as no task awaits or cancels the main task", "why_tests_cant": "needs every interleaving of the test's task with the main task, the clock loop and the tasks the environment has started", "anchors": ["toffee/asynchronous.py: main_coro, run"]}
{"id": "C77", "title": "Over a whole run every hook runs exactly once, in its own cycle and in priority order", "statement": "At every dut.Step up to the end of the test, the hooks started so far are exactly the hooks registered so far: each exactly once, in the clock cycle in which it was registered, none twice and none lost. Hooks served in the same pass are started by increasing priority value, and in the order of registration among equal values. Even after the test has ended or a hook has raised, no hook is started twice and none that was not registered.", "quantifier": "every test, every number of concurrent driver calls and monitors registering hooks in any interleaving, every schedule, for hooks that are ordinary functions", "why_tests_cant": "the interleavings of registrations and passes over a whole run are unbounded; a hook lost or repeated when registrations meet a pass would show only in some of them", "anchors": ["toffee/executor.py: add_priority_task, __execute_priority_tasks", "toffee/asynchronous.py: execute_all_coros, __execute_callback", "toffee/_base_agent.py: Driver.process_driver_call, Monitor.process_monitor_call"]}
{"id": "C78", "title": "A failing task that nobody waits for ends the run", "statement": "When a task fails that nobody waits for, has awaited or keeps a reference to, the loop is stopped: the DUT makes at most one more step, the run is left (provided no task runs for ever without awaiting anything), and as long as the test has not returned run() never returns normally afterwards; if the test is waiting for something at that moment, run() raises RuntimeError. This holds in particular for a driver call whose result differs from a reference model's (the comparison raises in a task of its own) and for a hook of a reference model that raises. Conversely, run() is left before the test is done only if some task has failed.", "quantifier": "every test, every set of concurrent tasks, hooks and driver calls, every schedule, every exception, every choice of which task objects are deleted when", "why_tests_cant": "depends on when task objects are deleted and on every state the other tasks and the clock loop can be in at that moment", "anchors": ["toffee/asynchronous.py: handle_exception, main_coro, run, create_task", "toffee/_base_agent.py: Driver.process_driver_call", "toffee/_compare.py: compare_once"]}
{"id": "C79", "title": "A monitor that fails does not go unnoticed", "statement": "When the method of a monitor raises, the run does not end as if nothing had happened: run() does not return the result of the test.", "quantifier": "every monitor, every test, every schedule", "why_tests_cant": "a unit test of a monitor that works cannot show it; what happens depends on which references to the task are kept", "anchors": ["toffee/_base_agent.py: Monitor.__init__, Monitor.__monitor_forever", "toffee/asynchronous.py: handle_exception, main_coro"]}
{"id": "C80", "title": "A task that fails while it is cancelled at the end of the test is reported", "statement": "At the end of the test all tasks are cancelled. When a task fails with an exception of its own during that (in its cleanup code), run() does not return as if nothing had happened.", "quantifier": "every task, every test, every schedule", "why_tests_cant": "depends on what cancellation meets in every task", "anchors": ["toffee/asynchronous.py: cancel_all_tasks, execute_all_coros, handle_exception, main_coro"]}
{"id": "C81", "title": "Calling a driver method runs the function that was called", "statement": "agent.method(...) runs the function of that driver method (as Python's method resolution finds it), through a driver that belongs to this method alone; super().method(...) inside an agent runs the function of the base class.", "quantifier": "every agent class with any number of base classes and methods, every attribute", "why_tests_cant": "all class hierarchies; a test sees one hierarchy", "anchors": ["toffee/agent.py: Agent.__create_all_drivers, Agent.all_driver_method, driver_method"]}
{"id": "C82", "title": "Each monitor method is watched by exactly one monitor task", "statement": "Creating an agent starts exactly one monitor task for each monitor method it has (inherited ones included, overridden ones only in the overriding version), and the agent knows that task under the name of the method.", "quantifier": "every agent class with any number of base classes and methods", "why_tests_cant": "all class hierarchies", "anchors": ["toffee/agent.py: Agent.__create_all_monitors, Agent.all_monitor_method, monitor_method", "toffee/_base_agent.py: Monitor.__init__"]}
{"id": "C83", "title": "Drivers and monitors know the path they are attached under", "statement": "Each driver and monitor reports its calls and results under the path 'agent.method', where agent is the name of the attribute of the env that holds the agent; hooks and ports given for that name are served.", "quantifier": "every env class of any inheritance depth, every sequence of assignments in its constructors, every agent", "why_tests_cant": "all constructors and hierarchies; sharing of an agent and later additions are not what a test tries", "anchors": ["toffee/env.py: Env.__init_subclass__, Env.__config_agent_name, Env.__inject_all, Env.all_agent_names"]}
{"id": "C84", "title": "The warning of from_dict and set_dict is exact", "statement": "Bundle.from_dict(d) and set_dict(d) warn about exactly those keys of d that can never take effect: a pin named by the value of a warned key is connected by no bind; a pin named by the value of any other key is connected, to the signal called like the key if there is one.", "quantifier": "every bundle tree, every dictionary, every DUT", "why_tests_cant": "all trees, dictionaries and DUTs", "anchors": ["toffee/bundle.py: Bundle.from_dict, Bundle.set_dict, Bundle.__check_dict_value"]}
{"id": "C85", "title": "from_prefix(prefix, dut) declares and connects exactly the DUT's pins with that prefix", "statement": "Bundle.from_prefix(prefix, dut) gives a bundle that has, besides what the class declares, one signal for each pin of the DUT whose name starts with the prefix; after bind(dut) each of them is that pin, and the sub-bundles of the class are connected as with from_prefix(prefix).", "quantifier": "every DUT, prefix and bundle class", "why_tests_cant": "all DUTs and classes; no test of the repository passes a DUT", "anchors": ["toffee/bundle.py: Bundle.from_prefix, Bundle.dut_all_signals, Bundle.bind"]}
{"id": "C86", "title": "A bundle made from an XPort behaves like a bound bundle", "statement": "Bundle.from_xport(port) gives a bundle whose signals are exactly the pins of the port: as_dict reads them and assign writes exactly the named ones; step() waits for their clock, the pins count as connected, and requests are processed.", "quantifier": "every XPort, every dictionary, every state of the pins", "why_tests_cant": "all ports and values; no test of the repository uses it", "anchors": ["toffee/bundle.py: Bundle.from_xport, Bundle.new_class_from_list, Bundle.step, Bundle.detect_unconnected_signals"]}
{"id": "C87", "title": "When the results of a driver call are compared, every hook of the call has returned, once", "statement": "When the result of a driver method is compared with the results of the reference models, every driver hook and agent hook for this call, of every model without a port for it, has been registered once and has returned once: the model-first ones before the driver method started, the dut-first ones after it had returned. The value compared is the one the method returned and the caller got. A call that never gets there has raised an exception or is still waiting for hooks or for the method.", "quantifier": "every driver, set of models, method, and every execution of everything else that runs in the loop", "why_tests_cant": "all interleavings with other tasks, hooks and calls of the same driver", "anchors": ["toffee/_base_agent.py: Driver.process_driver_call, Driver.__drive_single_driver_hook, Driver.__drive_single_agent_hook", "toffee/asynchronous.py: add_priority_task, __execute_priority_tasks, gather"]}
{"id": "C88", "title": "No comparison is lost when the test ends", "statement": "If run() returns a value, the results of every driver call that was handed over to the background comparison while the test was running have been compared, after all dut-first hooks of the call and in the clock cycle in which the method returned, and the comparison did not raise. This includes a call that is the very last action of the test: although the test has returned before the comparison is made, a mismatch still makes the run fail.", "quantifier": "every driver call with any hooks and any comparison, in every schedule, for every moment at which the test returns", "why_tests_cant": "the end of the test races with the background task; a test run shows one order of the two, and a lost comparison shows nothing at all", "anchors": ["toffee/_base_agent.py: Driver.process_driver_call", "toffee/asynchronous.py: __clock_loop, main_coro, handle_exception, run"]}
{"id": "C89", "title": "A monitor whose method waits is never re-entered and loses no result", "statement": "A monitor method may itself await (clock events, queues, other tasks). The monitor then works in rounds: it waits for one clock event, begins the method in the next cycle, and in the very cycle in which the method returns a value other than None hands it to all ports, hooks and the monitor's own queue (a bounded one that is full drops it), in order and once each, before it waits for the next clock event. A call of the method begins only after the call before has returned and its result has been delivered; at a clock edge no result is half delivered. The price: while the method waits nothing else is seen of the DUT, so a method that waits k clock events and then reads samples every (k+1)-th cycle only. More generally the operations of every task are those of its coroutine, in its order, each going on with the outcome of the one before; a wait for the clock event ends in the next cycle.", "quantifier": "Every monitor method (any coroutine, waiting or not, finite or not), every set of attached models, every test, every schedule, any number of cycles; for the general part every task and every coroutine.", "why_tests_cant": "A test sees a few rounds of one monitor under one schedule; that rounds never overlap and nothing is lost in between depends on all the others that run in the same cycle and on when the method suspends.", "anchors": ["toffee/_base_agent.py: Monitor.__monitor_forever", "toffee/_base_agent.py: Monitor.process_monitor_call", "toffee/agent.py: Agent.monitor_step", "toffee/bundle.py: Bundle.step", "toffee/asynchronous.py: Queue.put"]}
{"id": "C90", "title": "A reference model that reads its ports in a loop processes every value, in order, in the cycle of the last one it needs", "statement": "Let the main of a reference model be the documented loop: read one value from each of its ports, one after the other, then process them without waiting. The i-th round processes exactly the i-th value put into each port; none is lost, read twice or combined with values of another round. The round is processed in the very clock cycle in which the last of the values of this and the earlier rounds was put, not one later. So at each clock edge before the end of the test the model waits at an empty port, unless its processing has raised: when k values have been put into every port, k rounds have been processed.", "quantifier": "every number of ports, every processing that does not wait, every way the ports are filled (any tasks, orders and cycles, values of different ports arbitrarily far apart), every schedule, any number of cycles", "why_tests_cant": "a test fixes one order of arrival and one schedule; that a value can never be skipped, paired wrongly or delayed by a cycle is about all of them", "anchors": ["toffee/model.py: DriverPort.__call__, MonitorPort.__call__, AgentPort.__call__, Model.main", "toffee/asynchronous.py: Queue.get, Queue.put, __clock_loop", "docs/source/env/ref_model.md"]}
{"id": "C91", "title": "A debugger command does exactly what was typed, or nothing", "statement": "In the toffee debugger tstep advances the DUT by exactly the number typed (one if none is) and flushes the waveform after it, and no other command advances it; tset writes exactly the number typed to exactly the signal named, once, and refreshes; tprint and tlist only look, and show width and value of the signal named in the base asked for, or one line per signal. Numbers are decimal numerals with an optional sign, single underscores between digits and blanks around; words are separated by any blanks. A command whose argument cannot be understood, or whose signal does not exist, complains in one line and changes nothing.", "quantifier": "every DUT (whatever its methods answer, change or raise), every state of it, every command and every argument string (ASCII)", "why_tests_cant": "argument strings and DUT behaviours are unbounded; the commands have no tests at all since they need a terminal", "anchors": ["toffee/debug.py: PdbToffee.do_tstep, do_tflush, do_tlist, do_tprint, do_tset"]}
{"id": "C92", "title": "Forcing and releasing a signal leaves its write settings in order", "statement": "tforce switches the check for equal data off, sets the forcing mode, writes the number typed, refreshes and switches the check on again; trelease releases the signal, writes back the value it has, refreshes, returns to the mode without delay and switches the check on again. No command leaves a signal with the check switched off, whether it returns or is ended by an exception of the DUT.", "quantifier": "every DUT, state, command and argument string", "why_tests_cant": "the failing case needs a DUT that raises in the middle of the command", "anchors": ["toffee/debug.py: PdbToffee.do_tforce, do_trelease"]}
{"id": "C93", "title": "The rule shown for a signal of a bundle made from a dictionary names the pin it is connected to", "statement": "For a bundle made with from_dict whose keys are no pin names, all_signals_rule() gives for every signal, at any depth, the pin name the dictionary holds under the path of the signal, and says that nothing matches if there is none; a DUT pin with that name is connected to the signal.", "quantifier": "every tree below a bundle made from a dictionary, every dictionary", "why_tests_cant": "trees and dictionaries are unbounded; the rules only show up in messages", "anchors": ["toffee/bundle.py: Bundle.all_signals_rule, __get_rule_string, __filter_signals_in_dict, __get_path_from_rule_stack, detect_specific_connectivity"]}
{"id": "C94", "title": "What a monitor returns in a cycle has been processed by the reference model before the next clock edge", "statement": "Let a reference model read one port in a loop and process each value without waiting, and let the port be fed by a monitor. At every clock edge before the end of the test, neither having failed: the monitor's method has been called once in each cycle, each of its results that is not None has been processed by the model, one after another, in the very cycle in which the method returned it, and the port is empty; so a port with room for one item never drops a value. The same holds for whatever anybody else puts into such a port: it is processed in the cycle in which it is put, at any time the port holds at most what was put in the present cycle, and if processing a value raises, it does so in the cycle in which that value was put.", "quantifier": "every method of the monitor that does not wait, every other model attached to it, every processing that does not wait, every bound of the port (at least one, or none), every schedule, any number of cycles", "why_tests_cant": "it joins three tasks and the clock: a mismatch found a cycle late, or a value dropped by a full port under one unlucky schedule, passes any finite set of runs", "anchors": ["toffee/_base_agent.py: Monitor.process_monitor_call, __monitor_forever", "toffee/model.py: Port.put, MonitorPort.__call__, Model.main", "toffee/asynchronous.py: Queue.get, Queue.put, __clock_loop"]}
{"id": "C95", "title": "A driver call that cannot prepare its reference models raises before the method; the preparations it made stay", "statement": "Before the method of a driver call starts, the call goes through the models in order: it delivers its arguments to the ports of a model that has ports for it, and registers the hooks of the others that are to be called first. If a hook to be called first is a coroutine function, or the arguments do not fit the method and a port is to be filled, the call raises (AssertionError, TypeError) at the first such place: the method never starts and nothing behind that place is looked at. What comes before it stays: messages are in the ports and the registered hooks are still called by the clock, so a rejected call is not without effect. If a hook to be called after the method is a coroutine function, the call returns the value of the method all the same; the failure shows up in the background, and the results are not compared.", "quantifier": "every list of models, hooks and ports, every method, every reachable state and schedule, any other tasks", "why_tests_cant": "which of the hooks have been registered when the exception appears depends on the order of models and on schedules; the effect shows up only when the clock goes on", "anchors": ["toffee/_base_agent.py: Driver.process_driver_call, __drive_single_driver_hook, __drive_single_agent_hook, __drive_single_model_ports"]}
{"id": "C96", "title": "Queue.get, Queue.put, Event.wait and sleep: what the caller can rely on when the call comes back", "statement": "await queue.get() hands over exactly one item, the very one that this call has taken out of the queue; if the call is cancelled it raises CancelledError and has taken nothing, so a cancelled get() loses no item; and a get() that is still waiting when the clock advances waits for an empty queue. await queue.put(v) never waits: it returns in the same cycle with v as the last item of that queue and all other queues untouched. await event.wait() returns only if the event was set at the call or has been set since: by set(), by the clock for the clock event, or by the end of the hook that carries it. await sleep(0) returns None in the cycle of the call, and not before every task that was ready to run has run. sleep(d) with d > 0, by contrast, does not hold the clock: the number of cycles that pass before it returns has no bound.", "quantifier": "every test, every reachable state in which a task makes such a call, every queue, event and continuation, every schedule, any number of other tasks that put, get, set, clear and cancel", "why_tests_cant": "losing or duplicating an item needs a cancellation or a competing getter at one particular point between the put and the resumption of the task; no finite set of runs covers the interleavings", "anchors": ["toffee/asynchronous.py: Event.wait, Queue.put, Queue.get, sleep, __other_tasks_done, __clock_loop"]}
{"id": "C97", "title": "An executor block executes what was given to it however its body ends", "statement": "When the body of `async with Executor(exit) as exec:` ends - normally, or by an exception it raises itself, also the AssertionError of a rejected call, or by cancellation - every coroutine given to exec by an accepted call made so far is executed as if the body had ended normally, in its group and in order. With exit='all' an exception of the body comes out of the block only after all of them have been executed; if one of them raises, its exception comes out instead. With exit='none' the body's outcome comes out in the same clock cycle, all groups having been started. With any other value of exit the block raises ValueError and executes nothing.", "quantifier": "every test, every body (any sequence of calls and waits, depending on what they return or raise), every reachable state at the beginning of the block, every schedule", "why_tests_cant": "whether something is lost depends on where in the body the exception is raised, on which calls were made before, and on the interleaving with the other tasks", "anchors": ["toffee/executor.py: Executor.__init__, __aenter__, __aexit__, __execute, __exit_all, __exit_none, __call__, __sequential_execution_all"]}
{"id": "C98", "title": "A rejected call leaves no trace in the executor", "statement": "A call exec(coro, ...) that raises AssertionError (priority out of range, or priority or order for something that is not a driver call) changes nothing: the groups, the results and the end of the block are the same as without the call.", "quantifier": "every sequence of accepted and rejected calls, every key", "why_tests_cant": "needs every sequence of calls before and after the rejected one", "anchors": ["toffee/executor.py: Executor.__call__, __set_results, __exit_any"]}
{"id": "C99", "title": "A block to which nothing was given ends at once", "statement": "If no coroutine was given to the executor, leaving the block returns in the same clock cycle, whatever the exit condition; get_results() is then empty.", "quantifier": "every test, every state at the end of such a body, each exit condition, every schedule", "why_tests_cant": "that a block never ends is a statement about infinite executions", "anchors": ["toffee/executor.py: Executor.__exit_all, __exit_none, __exit_any; toffee/asynchronous.py: gather, Event.wait"]}
{"id": "C100", "title": "Models attached and monitors started during a run take effect with the next result", "statement": "While a test runs, models may be attached and detached and start_monitor may be called again, at any moment. Every value a monitor method returns is delivered, in the clock cycle in which it is returned, to exactly the ports and hooks of the models that are attached at that moment and to the message queue that is in use at that moment - none is delivered by an outdated list, none twice and none is lost.", "quantifier": "all tests, all monitor methods (also ones that wait), all models, all moments of attaching, detaching and starting, all DUTs", "why_tests_cant": "A test attaches before the run and starts a monitor once; the moments at which a change can fall between the return of the method and its deliveries are many.", "anchors": ["toffee/_base_agent.py: Monitor.__monitor_forever, Monitor.process_monitor_call, Monitor.enable_get_queue", "toffee/agent.py: Agent.start_monitor"]}
{"id": "C101", "title": "A call of a monitor method that waits gets the next result of the monitor", "statement": "After start_monitor, a call of the monitor method that finds no result waits, and comes back with the next result of the monitor, in the cycle in which it is returned (if no other call waits for it). Before start_monitor it raises an error.", "quantifier": "all tests, all moments of the call, all other tasks, all DUTs; also if start_monitor is called again meanwhile", "why_tests_cant": "A test calls the method at one moment; whether a waiting call is served depends on what other tasks do while it waits.", "anchors": ["toffee/agent.py: monitor_method, Agent.start_monitor", "toffee/_base_agent.py: Monitor.enable_get_queue", "toffee/asynchronous.py: Queue.get"]}
{"id": "C102", "title": "In a running test a trigger comes back in the first cycle in which its condition holds", "statement": "While a test with any number of other tasks runs, await Value/AllValid/Condition(..., delay) looks at the pins once in every clock cycle from delay cycles after the call on and comes back in the first of these cycles in which the condition holds at that moment, before anything else happens; Change, RisingEdge and FallingEdge look once in every cycle from the call on and come back in the first cycle in which the pin shows the edge against the cycle before. No cycle is skipped, and no clock step is made while a trigger whose condition holds has not come back.", "quantifier": "all tests, all other tasks (which may drive the same pins in the same cycles), all DUTs, all values and delays, all moments of the call", "why_tests_cant": "A unit test has one task and one waveform; whether a cycle can be missed depends on how the event loop interleaves the waiting task with all others.", "anchors": ["toffee/triggers.py: Value, AllValid, Condition, Change, RisingEdge, FallingEdge, ClockCycles", "toffee/asynchronous.py: __clock_loop, execute_all_coros"]}
{"id": "C103", "title": "A bind that raises has no lasting effect", "statement": "If bind raises an exception, the bundle is as before: the rules can be corrected and bind called again, with the same signals, the same numbers of connections and the same reports of unconnected and multiply connected pins as if the failed call had not been made.", "quantifier": "all bundle trees and rules, all DUTs, all states of the pins, all places in the tree where the exception can be raised, first binds and rebinds", "why_tests_cant": "A test sees one tree; what stays behind depends on how far binding had come in the tree, on every level, before the exception.", "anchors": ["toffee/bundle.py: Bundle.bind, Bundle.__bind_from_signal_list, Bundle.__detect_missing_signals, Bundle.__unbind_all, Bundle.__remove_signal_attr, Bundle.__update_signal_info, Bundle.detect_multiple_connections"]}
{"id": "C104", "title": "A hook a monitor serves is executed on every result, or rejected", "statement": "For every result of a monitor method that is not None, each monitor hook of the attached models has been executed on the result, and each agent hook on the path of the monitor and the result, before the DUT is stepped again, whether the hook is a function or a coroutine function; a hook that cannot be executed is rejected with an error.", "quantifier": "all tests, all models with any number of hooks of both kinds, all results, all interleavings of the tasks, functions and coroutine functions as hooks", "why_tests_cant": "A test sees one model; that a hook was silently dropped can only be noticed by a test that looks for its effect, in every cycle.", "anchors": ["toffee/_base_agent.py: Monitor.process_monitor_call, Driver.process_driver_call", "toffee/model.py: monitor_hook, agent_hook", "toffee/executor.py: add_priority_task", "toffee/asynchronous.py: __clock_loop"]}
{"id": "C105", "title": "A process_requests call that raises is over", "statement": "If process_requests raises, because the condition, callable, function or assignment of one of its requests raised or because the bundle is not bound, none of its requests is applied afterwards, and process_requests can be called again once the cause has been removed.", "quantifier": "all lists of requests, all places at which an exception can be raised, all cycles, bundles with and without a DUT, all later calls and steps", "why_tests_cant": "A test sees one list and one failing request; what stays in the queue depends on which request fails, in which cycle and at which point, and shows only in later calls.", "anchors": ["toffee/bundle.py: Bundle.process_requests, Bundle.___dut_call_on_rise__, Bundle.make_requset_response_for"]}
{"id": "C106", "title": "Order and priority given to exec are those of that call only", "statement": "priority and sche_order given to exec(agent.method(...)) hold for that call. A call of the same driver method made otherwise (awaited directly, or given to exec without them), before or after, uses the order and priority its hooks were declared with.", "quantifier": "all tests, all blocks of executors and all calls of the same driver method outside of them, all models with any number of hooks, calls that return and calls that raise, all interleavings of the tasks", "why_tests_cant": "A test sees one order of calls; whether a later call sees the setting of an earlier one depends on when the hooks of the earlier call are done, and on whether it raised.", "anchors": ["toffee/executor.py: Executor.__call__, Executor.__sequential_execution_all", "toffee/_base_agent.py: Driver.process_driver_call"]}
{"id": "C107", "title": "Several DUTs can be clocked in one test", "statement": "start_clock can be called for several DUTs in one test. Whatever the tasks wait for, each of the DUTs is stepped again and again, and a task that awaits n cycles of one of them comes back after exactly n steps of this DUT.", "quantifier": "any number of DUTs and of start_clock calls in any order, any number of tasks, all sequences of awaits, all executions", "why_tests_cant": "A test has one order of start_clock calls and one set of waiting tasks; whether a clock advances depends on what all other tasks wait for, over an unlimited number of cycles.", "anchors": ["toffee/asynchronous.py: start_clock, __clock_loop, __other_tasks_done, __has_unwait_task, __run_once", "toffee/triggers.py: ClockCycles"]}
{"id": "C108", "title": "Monitors come first in a cycle", "statement": "At the beginning of each cycle the monitor methods of all agents are called before anything else is done in this cycle: when the test resumes after a wait for the clock, each monitor method has already been called in this cycle.", "quantifier": "any number of monitors, any test, whoever creates the environment, all cycles, all executions", "why_tests_cant": "Which task is resumed first after a clock edge depends on which began to wait first, which in turn depends on the previous cycle; a test sees the order of one program over some cycles.", "anchors": ["toffee/agent.py: monitor_method", "toffee/_base_agent.py: Monitor.__monitor_forever", "toffee/asynchronous.py: main_coro, start_clock, __clock_loop", "docs/source/env/agent.md: Agent 中的时序"]}
{"id": "C109", "title": "Monitors are called up to the last cycle of the test", "statement": "A monitor method is called once in each cycle from the one after its monitor began up to and including the cycle in which the test returns, also when nothing else happens in that cycle; it is not called in the cycles that run() adds after the test has returned, and when these begin the monitor has ended. This holds as long as the method does not raise and the test cancels nothing.", "quantifier": "any test that cancels nothing, any number of agents, any method and deliveries, any cycle in which the test returns, all executions from there on", "why_tests_cant": "The last call depends on how the tasks woken by the clock are interleaved with the end of the test, the last round of the clock task and the cancellation; a test observes one program whose last cycle it knows.", "anchors": ["toffee/_base_agent.py: Monitor.__monitor_forever", "toffee/asynchronous.py: main_coro, execute_all_coros, cancel_all_tasks, __clock_loop", "docs/source/env/agent.md: Agent 中的时序"]}
{"id": "C110", "title": "An executor can be used for another block", "statement": "After a block `async with executor` with exit='all' has ended normally, the same executor object can be used for another block: the coroutines given to it there are executed, the block ends when they have returned, and get_results() gives their results. (False of the code: if the first block executed at least one coroutine, the second block never ends normally; it raises AttributeError as soon as the first group that was used in both is awaited, whatever it was given.)", "quantifier": "any calls made in the first block, any body and calls of the second, any continuation, all executions from the second block on", "why_tests_cant": "A test of the class creates a new executor for every block; that the second block can never end normally, whatever is given to it, ranges over all calls, groups and schedules.", "anchors": ["toffee/executor.py: Executor.__aexit__, Executor.__exit_all, Executor.__get_sche_group, Executor.__sequential_execution_all, Executor.__get_driver"]}
{"id": "C111", "title": "run() returns after the test, however many DUTs are clocked", "statement": "When the test has returned, run() returns after at most one further step of each DUT: at the end of a test the outstanding tasks are cancelled and main waits for a last clock event, whatever number of DUTs is clocked and whichever of them the test waited for last.", "quantifier": "any number of DUTs and of start_clock calls in any order, any number of tasks, all sequences of awaits, all executions", "why_tests_cant": "That run() does not return is seen as a hanging test, which no assertion reports; whether it hangs depends on the order in which the clock loops are resumed when the test returns.", "anchors": ["toffee/asynchronous.py: main_coro, start_clock, __clock_loop, execute_all_coros, cancel_all_tasks, run"]}
{"id": "C112", "title": "Nothing of a test is left behind by run()", "statement": "When the loop that runs the test has stopped, run() cancels all tasks that are still pending, among them the clock, and waits for them: after run() no task of the test is unfinished, the DUT has not been stepped any more, and run() returns or raises what the test returned or raised.", "quantifier": "all tests, any number of tasks and hooks in any state when the loop stops, all orders in which the tasks are cancelled, all executions of the cleanup", "why_tests_cant": "A unit test sees the outcome of run() only; what a task does when it is cancelled after the test is over depends on where it was suspended at that moment, and a run() that does not return is reported by no assertion.", "anchors": ["toffee/asynchronous.py: run, main_coro, __clock_loop, execute_all_coros", "toffee/executor.py: __execute_priority_tasks"]}
{"id": "C113", "title": "Monitors and drivers of an agent are found by name, each monitor with its own queue", "statement": "get_driver_method(name) and get_monitor_method(name) return the agent's driver (monitor) method of that name and None for every other name; start_monitor(name) and monitor_size(name) accept exactly the names for which get_monitor_method finds a method and raise KeyError without any effect for others. What is delivered by a call of a monitor method, and its monitor_size, depend on the results of this method and on the calls that name it only, whatever is started, produced or read for the other monitors of the agent.", "quantifier": "all agents (any classes, inherited and overridden methods, instance attributes), all histories of start_monitor, monitor_size, results and calls, for all monitors together", "why_tests_cant": "A unit test has one or two monitors with the names the class gives them; that no sequence of operations on one monitor is seen by another one, for any set of names, is a statement about all histories.", "anchors": ["toffee/agent.py: Agent.get_driver_method, Agent.get_monitor_method, Agent.start_monitor, Agent.monitor_size, monitor_method", "toffee/_base_agent.py: Monitor.enable_get_queue, Monitor.get_queue_size, Monitor.__monitor_forever"]}
{"id": "C114", "title": "Bundles of one DUT process their requests independently", "statement": "When several bundles are bound to one DUT, process_requests of one of them applies exactly the requests given to it, to this bundle, at one request per cycle if they have no conditions, and returns what it would return if the bundle were the only one of the DUT; nothing is assigned to the other bundles.", "quantifier": "any number of bundles, bound in any order, all lists of requests, all states of the other bundles (requests queued or blocked), all DUTs, conditions and functions", "why_tests_cant": "A test binds two bundles and looks at one sequence of requests; the callbacks of all bundles are called in every cycle of the DUT, so each combination of what is left in the others matters.", "anchors": ["toffee/bundle.py: Bundle.bind, Bundle.make_requset_response_for, Bundle.process_requests, Bundle.___dut_call_on_rise__"]}
{"id": "C115", "title": "A value for a list must have one element for each member of the list", "statement": "When assign is given a value for a list of signals or a list of bundles, the assignment raises and writes nothing unless the value has exactly as many elements as the list: too many elements, too few, or a value without a length are refused before the first signal is written.", "quantifier": "all bound bundles with lists of signals or bundles of any length, all values (numbers, strings, lists, dictionaries, objects), all states of the pins, all rules for writing a pin", "why_tests_cant": "A test tries one list with one wrong length; that nothing is written for every kind of value and every length, and what happens to a surplus, needs an argument over all values.", "anchors": ["toffee/bundle.py: SignalList.assign, BundleList.assign, Bundle.assign"]}
