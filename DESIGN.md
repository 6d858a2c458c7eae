# Formal model of toffee: design

Subject: XS-MLVP/toffee (python) at the pinned commit in /repo, read as text. Tool: Rocq/Coq 8.16.1.

## 1. Approach

* Every function of the code that a property depends on is a small total Gallina function in a file
  `X_Model.v`; each definition cites the file and lines it follows and names its simplifications.
  Python exceptions are values of a result type; mutation is state passing, so the state left behind
  *by an exception* is part of the result where a property talks about it.
* The specification of a property (`X_Spec.v` or the head of the theorem) is written without the
  model's helper functions: counts of events in a history, first index with a property, multiset /
  order of a trace, and so on.
* `X_Proofs.v` holds lemmas; `P_X.v` holds only the property theorems (each closed by `exact`),
  an `Example` showing that a concrete non-trivial case meets the hypotheses, and `Print Assumptions`.
* A property that the code does not have is kept with its full statement: `..._refuted` proves, in the
  model, that the claim fails (with a concrete witness), and `..._partial` proves the claim under the
  restriction that makes it true. Such a property has status `partial` in MANIFEST.json.

## 2. Per property: what is modelled, how it is proved

| id | model | proof |
|----|-------|-------|
| C01 | `TwoBitsCounter` as Z state | induction over the update list |
| C02-C04 | `PLRU` tree bits as a function on node numbers, `update`/`get` loops with explicit descent | induction over tree depth; C02 refuted for ways_num = 3 |
| C05, C06 | `LFSR_64.step` on Z / N | bit-level lemmas; linear map over GF(2), matrix powers by vm_compute, order argument with the factorisation of 2^64-1 |
| C07 | `Delayer` buffer | invariant over the sample list |
| C08 | Delayer + callback loop `execute_all_coros` | refuted: second pass samples twice; partial: cycles without re-run |
| C09-C16 | `CovGroup` state machine (points in insertion order, counters, cached flags, once, stop flag, raising bins) | invariants over operation histories |
| C17 | `mark_function`, matchers abstract | direct + frame |
| C18 | predefined conditions | direct over Z |
| C19 | `Port` queue | refinement to "accepted deliveries" |
| C20 | Monitor queue | invariant; queue-full error path modelled (refuted outside an Env) |
| C21 | hook/port naming, `str.replace` | string induction |
| C22-C27 | Env.attach/unattach, Model.collect_all, injection, matched flags | structural induction over agents/methods; refutations by witness |
| C28 | priority task list | stable-sort lemma |
| C29 | `Drv_Model`: a driver call as a program of the loop model (registering hooks, waiting for their events, the method, the background task) | symbolic execution of the call inside an arbitrary test: a relation "this call is at this point" kept by every step of the loop; hooks are located in the list of executed hooks |
| C30, C32 | `Call_Model`: inspect.signature().bind for the five parameter kinds, delivery to ports, choice of hooks, compare_once | induction over parameters and over the models; a declarative binding relation as specification |
| C31 | driver attributes `sche_order`/`priority` in the memory, `Exec_Model` assigns them | which value each registration reads, for calls that are alone; refuted when a later registration reads the attributes of another call |
| C33 | event loop (`Loop_Model`) | invariant: every handle in the ready queue belongs to a task that "can run" unless one of three named situations holds; refuted for cancelled tasks, hooks that wake tasks without an event, and asyncio.gather |
| C34 | `clock_cycles` as a program of the loop | the waiter of the clock event is settled by the next Step; induction over n |
| C35 | `gather` as a program | relation "gather is at this point" kept by every step |
| C36, C37 | `Exec_Model`: `__call__`, `__set_results`, the three exit modes, wait_all | dictionary induction; the same relation as for gather; C37 refuted for "all" when a group raises (the other groups run on) |
| C38 | `main_coro`, `cancel_all_tasks`, the last step | invariant protecting the main task, monotone facts (`test_done`, number of steps); refuted: one step exactly, cancelling all, return, result |
| C39, C40 | triggers over a waveform `nat -> value` | fuel-indexed loop = least index |
| C41-C47, C57, C69 | Bundle tree, bind as coded (list filtering and name reverting) | refinement to a per-name routing function; nested induction |
| C48-C52, C63 | as_dict/assign/set_all/randomize_all/set_write_mode over a pin store | nested induction with frame lemmas; '*' on any level of the dictionary by the same induction with the innermost '*' as the default of a level (`star_main`) |
| C53-C55 | request queue and rising-edge callback as transition system, request objects in a heap | invariant over cycles; refuted for callables and re-used dictionaries |
| C56 | small heap model of instance creation | separation of reachable objects; refuted for BundleList |
| C58 | StatsHandler, formatter | induction over records |
| C59 | generator line wrapping | induction |
| C60 | adder | lia |
| C61 | `Mon_Model`: `__monitor_forever` as a program of the loop | relation "the monitor is at this point" kept by every step; deliveries located in the history of the queues; ports are bounded as `Port.put` makes them: what a queue is offered and what it takes is one relation |
| C62 | asyncio.Event and asyncio.Queue in the loop model | history invariant: items put = items taken ++ items left |
| C64 | PLRU | how long a used way is protected, by depth |
| C65 | priority task list with raising hooks | refuted by witness |
| C66 | add_watch_point argument shapes | refuted for the default name, proved otherwise |
| C70 | `Comp_Model`: Component.__main_wrapper as a program of the loop | a task without waiter keeps the clock from stepping; then the argument of C34 |
| C71 | Exec_Model (exit='any') on the loop model | refutation: the wait for the event lasts as long as nobody sets it; only a group that executed completely sets it |
| C72 | infinite executions of the loop model | ranking argument on the ready queue and the clock loop's position; run() returns by the same argument after `test_done`; `C72_waiting_hook_stalls`: hooks that wait do stall the clock |
| C73 | `SignalList`, `BundleList` on the bundle model | lengths of digit runs determine the number in a formatted name; bind by C41 |
| C74 | the loop model with `Drv_Model`; hooks that do not wait (`Hook_Spec`) | invariant: a registered hook is in the priority list, or in the list being worked off, or its event is in the list of executed hooks, the latter at every dut.Step; an executed hook's event is set, so nobody is waiting for it at dut.Step (C33) or when the clock task is about to cancel the other tasks |
| C75 | the loop model; the main task about to raise (`Fail_Spec`) | the step makes the main task failed and schedules its stop callback; the callback is reached because the ready list is a queue; at most one pass of the clock task fits in each of the two iterations until the loop stops |
| C76 | `MainEnv_Model`: the part of main_coro that calls env_handle and awaits a task for the test | the main task is followed from the initial state through env_handle and the await; a done main task has the outcome of the awaited task; with C38 for the last clock event |
| C77 | the loop model with a history of registrations and starts (`HookLog_Spec`) | invariant: the registrations fall into groups already served and those pending in the priority list; during a pass the starts are a prefix of the sorted pending group; the list is empty at dut.Step; the sort is stable (C28) |
| C78 | `Handler_Model`: the machine with asyncio's exception handler; deleted task objects are an input | the step of the failing task sets the flag; at most the rest of the current iteration runs, in which the clock task has at most one turn; the main task cannot get done in it; tasks that are awaited stay claimed for ever, so deleting them has no effect |
| C79, C80 | `Handler_Model` with `Mon_Model` / cancel_all_tasks | refuted by witness |
| C81, C82 | `Agent_Model`: namespaces in method resolution order, dir(), the dictionaries of drivers and monitors | the names of dir() are strictly sorted, a fold of dictionary assignments keeps the last; method resolution as an inductive relation (`found`); refuted for super(), equal `__name__`s and aliases |
| C83 | `Agent_Model`: assignments and configurations during the construction of an env | the last configuration comes after all assignments; keys are unique, so the last name in dir() order decides; refuted for shared and late agents |
| C84-C86 | `Make_Model`: from_dict with its check, from_prefix with a DUT, from_xport on the trees of `Bundle_Model` | the check is binding in detection mode (`detect_main`), bind by C41; own signals come first in the search order; the xport bundle is flat, reading and writing by the lemmas of C48 and C51 |
| C87 | the driver call of `Drv_Model` on the loop machine | composition of the three stages of C29 (`C29_model_first`, `C29_method`, `C29_dut_first`) for one call; that the registrations of the two stages differ and that each has returned once follows from the list of hooks that have returned (`ran_once`, `ran_grows`) |
| C88 | `Drv_Model` on the loop with the handler (`Handler_Model`) | C74 gives the comparison before the clock task goes on or cancels (no future is cancelled up to there); a failing comparison falls in the cycle of the call, where the main coroutine still waits for the clock event, so the handler's stop leaves it unfinished |
| C89 | `WMon_Model`: `__monitor_forever` around a method that is any coroutine, on the loop model | the record of the operations a task begins (with cycle and, where they cannot wait, outcome) follows its program (invariant: running at, inside an operation of, or over with the program); a state-free lemma splits every such record of the monitor into rounds |
| C90 | `Ref_Model`: the documented main of a reference model with ports, on the loop model | the state of the loop (reading port j with what is already read, processing, over) is an invariant of the executions together with the record of what it did and of what was put (`stage_step`); that a waiting reader is served in the cycle of the put is C62; a state-free lemma gives the cycle of a round |
| C91 | `Dbg_Model`: the commands of `PdbToffee` as programs over an arbitrary DUT, with the trace of calls and lines | `split` and `int` are proved equivalent to an inductive grammar of words and numerals; the commands by cases over everything the DUT can answer |
| C92 | `Dbg_Model` | false when the DUT raises (witness); by cases otherwise |
| C93 | `Bundle_Model`: `all_signals_rule`, `rule_string` | induction on the way down to a sub-bundle; false for the signals of sub-bundles (witness) |
| C94 | `Mon_Model` and `Ref_Model` on the loop model, joined by one record of an execution (`flow`) | what is put into the port is what the monitor is seen to put, with the cycle of its call (`flow_puts`); that the port is empty when the monitor looks follows from C90_room; the rest from C61_every_cycle and C90_keeps_up |
| C95 | `Drv_Model` with coroutine hooks (`h_coro`), on the loop model | the set-up of a call is followed item by item (`setup_track_full`): the first impossible item is where it raises, the hooks before it are registered; the specification lists the duties of a call independently of the model's items; that the registered hooks are called all the same follows from C74; an execution shows both effects of a rejected call |
| C96 | `queue_get`, `queue_put`, `event_wait`, `sleep0` of `LoopProg_Model`, `Prim_Model` (sleep(d), d > 0), on the loop model | the task is followed from the call to its return through the future of the queue or event; for get() along executions that record what the task takes; for sleep(0) along the ready queue, which is first in first out; a loop of states shows that sleep(d) has no bound |
| C97 | `Block_Model` (body of the block, `with_executor`) on `Exec_Model` and the loop model | induction on the body, the task being followed through each operation; at its end the groups are those of the calls made (C36_groups), then C37_all/C37_none |
| C98 | `Exec_Model.add`, `Block_Model` | the groups after one more rejected call, by computation on the list of calls; two executions refute the full claim |
| C99 | `Exec_Model.execute` without groups, on the loop model | one step for 'all', none for 'none'; for 'any' the task is followed into the wait for an event that nobody sets; an execution refutes the full claim |
| C100 | `DMon_Model`: `__monitor_forever` with the attached models and the queue read from the memory after each result, on the loop model | an instance of the monitor of C89 (method followed by the reading); the rounds of C89 are taken apart into method, reading and deliveries; what the reading gives is tied to the memory of that state by a record that carries the memory |
| C101 | the call of a monitor method (`DMon_Model.monitor_call`) on the loop model | one step leads to Queue.get of the queue in use (C96); what the call is served with by FIFO accounting between the call and the clock step (`DMon_Spec.flow`); refuted by a whole execution when the monitor is started again |
| C102 | `LTrig_Model`: the triggers as coroutines on the loop model, with any other tasks | an invariant of the waiting task over all executions: where it is in its loop, which looks it has made, in which cycles, with which answers; the in-wait invariant of C34 ties the looks to the clock steps |
| C103 | `BindX_Model`: bind with the tree and the pins also when it raises | agreement with `Bundle_Model.bind`; induction over the tree: what has been connected and counted when the exception is raised; an unbinding that fails leaves a tree on which unbinding fails; two witnesses |
| C104 | `HookCall_Model`: the hooks of a monitor as functions or coroutine functions | C61 (what is registered), C74 (it has its turn before dut.Step), then what a turn does to the memory; a witness with coroutine functions |
| C105 | `ReqX_Model`: the request queue and process_requests with errors raised by user code and by the missing DUT | agreement with `Req_Model` where nothing raises; invariant of the cycles (taken requests followed by the queue; owner of the blocked dictionary); two witnesses |
| C106 | `Drv_Model`, `Exec_Model`: the two attributes of a driver that the executor assigns and background_exec unassigns | C29 and C31 at states where nothing is assigned; step of the conclusion; two executions as witnesses |
| C107 | `Clk_Model`: the ready queue with several clock loops and tasks that await clock events | invariant of the queue; characterisation of the rounds between two points at which only clock loops can run; witness with two DUTs |
| C108 | `Loop_Model`, `Mon_Model`, `MainEnv_Model` | invariant: the waiters of the clock event are ordered by the time they began to wait, and of two tasks that wait for the clock only the first stays ahead; witness with a test that creates its environment itself |
| C109 | `Loop_Model`, `Mon_Model` | the phases of the clock task after the test has returned, followed together with the phases of the monitor of C61: the rest of the cycle, the cancellation, the cancelled monitor |
| C110 | `Reuse_Model` (`Exec_Model`, `Block_Model`) | the groups kept from the first block contain coroutines whose awaiting raises at once; a task for such a group never returns (invariant over its phases), so `gather` (C35) cannot return; refuted by a run of two blocks |
| C111 | `ClkEnd_Model` (`Clk_Model` with the end of the test) | simulation by `Clk_Model` until a clock loop notices the end; invariant of the phases after it (cancel, gather, sleep, step); witness with two DUTs |
| C112 | `Cleanup_Model` (`Loop_Model` with the cleanup of asyncio.run) | invariants of the token, gather and clock lemmas carried over the start of the cleanup; a cancelled task keeps its cancellation until it is resumed; counting of the stop callbacks; witnesses |
| C113 | `AgentQ_Model` (attributes of `Agent_Model`, monitors of `Port_Model`) | projection of the histories of an agent to those of one monitor; the numbers of the monitor objects are unique; witnesses |
| C114 | `ReqM_Model` (callbacks of `Req_Model` for several bundles of a DUT) | the other callbacks leave the queue of a bundle alone and keep its dictionaries; bisimulation with `Req_Model` while the others rest; a witness |
| C115 | `BundleVal_Model` (SignalList.assign, BundleList.assign) | the entry for a list of signals is `SignalList.assign` with as many slots as the list has elements; induction over the list of bundles for the surplus; a witness |
| C67, C68 | `get_path` remembering its answer, decorator closures | refuted by witness, proved otherwise |

## 3. Trusted base

* Coq's kernel (8.16.1), its VM (`vm_compute`), and what `Print Assumptions` reports (see section 5).
* The reading of the Python source into Gallina (comments give file and line).
* The asyncio runtime, Python's `re`, `str.replace`, `inspect.signature().bind`, and the picker-generated
  DUT classes (`XPin`, `XData`, `StepRis`) are outside the repository: what is assumed about them is
  stated in the header of the model file that uses them.

Model files and the code they follow:

| file | code |
|------|------|
| `TwoBits_Model`, `Plru_Model`, `Lfsr_Model` | `toffee/utils/*.py` |
| `Delay_Model` | `toffee/delay.py` |
| `Funcov_Model` | `toffee/funcov.py` |
| `Port_Model`, `Names_Model` | `toffee/model.py`: Port, hooks, decorators; the monitor queue of `toffee/_base_agent.py` |
| `Env_Model` | `toffee/env.py`, `toffee/model.py`: collect_all, ensure_all_matched |
| `Prio_Model` | `toffee/executor.py`: add_priority_task, execute_priority_tasks |
| `Loop_Model` | `toffee/asynchronous.py`, the part of asyncio (CPython 3.10) it uses: tasks, futures, Event, Queue, sleep, gather, cancellation; one machine step per operation |
| `Clk_Model`, `ClkEnd_Model` | `toffee/asynchronous.py`: start_clock and __clock_loop for several DUTs, main_coro and cancel_all_tasks at the end of such a test; tasks await clock events only |
| `Cleanup_Model` | `toffee/asynchronous.py`: run, with what asyncio.run (CPython 3.10 runners.py) does after the main coroutine: _cancel_all_tasks; the later run_until_complete calls only as further runs of the loop |
| `AgentQ_Model` | `toffee/agent.py`: get_driver_method, get_monitor_method, start_monitor, monitor_size and calls of monitor methods, for all monitors of an agent together; the Monitor objects are those of `Port_Model` |
| `ReqM_Model` | `toffee/bundle.py`: bind (its registration), ___dut_call_on_rise__ and process_requests for several bundles bound to one DUT |
| `LoopProg_Model` | ClockCycles, Bundle.step, Event.wait, Queue.put/get, sleep, gather as programs of that machine |
| `Prim_Model` | `sleep(d)` with d > 0 as a program of that machine |
| `Comp_Model` | `Component` of `toffee/asynchronous.py` |
| `MainEnv_Model` | `main_coro` with an env_handle (asynchronous.py:240-244): `args = env_handle()`, `await create_task(test(*args))` |
| `Handler_Model` | `handle_exception` and its effect on `run` (asynchronous.py:208-215, 232-233) |
| `LoopRun_Model` | no code: runs the machine for examples and refutations |
| `Mon_Model`, `WMon_Model`, `DMon_Model`, `HookCall_Model`, `Call_Model`, `Drv_Model` | `toffee/_base_agent.py`, `toffee/_compare.py`, `toffee/agent.py` |
| `Agent_Model` | `toffee/agent.py`: Agent, driver_method, monitor_method; `toffee/env.py`: __init_subclass__, __config_agent_name, all_agent_names, the loop of __inject_all |
| `Exec_Model`, `Block_Model`, `Reuse_Model` | `toffee/executor.py`: Executor |
| `Bundle_Model`, `BundleVal_Model`, `Lists_Model`, `Req_Model`, `Inst_Model`, `Make_Model`, `BindX_Model`, `ReqX_Model` | `toffee/bundle.py` |
| `Trig_Model`, `LTrig_Model` | `toffee/triggers.py` |
| `Logger_Model` | `toffee/logger.py` |
| `Codegen_Model` | `scripts/bundle_code_gen.py`, `scripts/bundle_code_intel_gen.py` |
| `Adder_Model` | `example/adder/env/refmodel.py` |

Assumptions about what is outside the repository, beyond the headers of the model files:

* asyncio's ready queue is FIFO, and an iteration of the loop runs the handles that were ready when it began;
  timers expire in an arbitrary order at arbitrary iterations (the machine takes them as an input of each step).
* The order in which a Python set of tasks is iterated is arbitrary (`shuffle`).
* Which failed task objects are deleted, and when, is arbitrary (`gc`, an input of each step of `Handler_Model`).
* `dut.Step(1)` is an arbitrary function on the memory (`dut`); it does not call into the loop.
* Between two awaits user code is an arbitrary function on the memory (`OMem`); what it can do to the loop is what the
  constructors of `op` offer.

## 4. Not modelled

* Text of log messages, colours and file output of `logger.py` (only counts and id rendering).
* The line handling of `pdb` behind `debug.py`, type checks of decorators other than those named in a property, GUI/HTML report output.
* `set_clock_event` and `run` for Python before 3.10.1; several clocks together with hooks, queues or new tasks (`Clk_Model` and `ClkEnd_Model` have tasks that await clocks only); `handle_exception` for anything but failed tasks (deleted
  pending tasks, errors in callbacks); shutdown_asyncgens and shutdown_default_executor in asyncio.run (`Cleanup_Model` has the cancelling of the tasks).
* `Bundle.set_name` called by the user, `__str__`/`__repr__`.
* Agents: properties and other descriptors, several decorators on one function.
* What a DUT does with an exception raised in a callback of its clock (assumed: it leaves `Step`; C105).

## 5. Print Assumptions

Every theorem named in MANIFEST.json is followed by `Print Assumptions` in its file, so a build prints the answer for each.
For all of them it is "Closed under the global context": no axiom of the standard library is used, and none is added.

A listing of everything in the loaded libraries (as `coqchk -o` or the gate's report give it) also names seven items
`Coq.ssr.ssrunder.Under_rel.*`. They are the fields of a module type of the standard library that comes with `Lia`/`ssreflect`
support files; no theorem depends on them.

`vm_compute` is used in the LFSR matrices (C06), in examples and in refutations; it is part of the kernel.
