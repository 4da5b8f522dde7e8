# Formal model of scaled-distributed/scaled in Rocq (Coq 8.16.1)

## 1. What this is

`rocq/theories/Model/` is an executable Gallina transcription, function by
function, of the Python code in `/repo/scaled`.  `rocq/theories/Spec/` holds
small specifications that do not mention the model.  `rocq/theories/Proofs/`
holds the proofs.  `rocq/theories/Props/` holds only the final theorem
statements (each one closed by a lemma from `Proofs/`), each followed by
`Print Assumptions` and by an `Example` showing that a concrete, non-trivial
case satisfies its hypotheses.  `properties.jsonl` lists the properties in
English; `MANIFEST.json` maps them to theorem names.

## 2. Modelling conventions

* **bytes** are Coq `string`s (a Coq `ascii` is exactly eight bits), compared
  lexicographically as Python does.
* **Exceptions are values** (`exn`, `res`).  A function that may raise returns
  `Raise e`.  In the scheduler, the worker agent, the processor and the client's
  connector thread nothing on the modelled paths catches exceptions (except the
  `try/except` blocks that are modelled explicitly), so an uncaught exception
  ends the component: the model keeps the messages sent before it and moves to
  a crashed state in which nothing happens any more.
* **Sending** a message appends it to an output trace.  ZeroMQ send high-water
  marks are 0 (unlimited), so sends never suspend.
* **asyncio atomicity**: a coroutine runs without interruption up to an `await`
  that really suspends.  In the scheduler these are only: waiting for the next
  network message, waiting on an empty queue, and `asyncio.sleep`.  So every
  message handler and every loop body is one atomic step.  The one exception is
  the dispatch loop, which can be parked inside `assign_task` with a task in
  hand when no worker is registered; the model has an explicit slot for it.
* **Dictionaries and sets** are std++ `gmap`/`gset` where iteration order cannot
  be observed, and insertion-ordered association lists where it can.  Where
  Python iterates over a set or dict and the order is observable (e.g. which of
  a dead worker's tasks is requeued first) the order is an explicit parameter of
  the step (an arbitrary permutation), so theorems hold for all orders.
* **Time** is an integer supplied by each event (arbitrary, so theorems hold for
  every clock); monotonicity is assumed only where stated.
* **Fuel** appears only where Python recursion is mutual between managers; running
  out of fuel is a distinct error value which is proved unreachable or excluded.
* **Refuted expectations.** Where the code does not have a property a user would
  expect, the theorem `..._refuted` exhibits a concrete execution of the model
  (checked by the kernel's evaluator) and, where there is one, the strongest true
  version is proved as `..._partial` or under its own name.

## 3. Per-property plan

M = modelled, P = how proved.

| id | M | P |
|----|---|---|
| C01 | pointer-level doubly linked list (node store, prev/next, first/last) + hash index | refinement to list FIFO by a representation invariant, induction over operation sequences |
| C02 | same, hash as parameter | concrete colliding history |
| C03, C04 | two-dictionary model | refinement to a finite function / relation |
| C05 | CPython `heapq` on a list of mutable cells + locator dict | heap-order invariant, permutation lemmas, refinement to a finite map with min |
| C06 | same with `max_priority` | refutation by execution; positive: general invariant including stale cells |
| C07–C10, C12, C13 | `QueuedAllocator` over the cell-level queue | invariant over all operation sequences |
| C11 | `balance` over exact rationals (floats idealised) | arithmetic |
| C14–C18 | byte-exact codec incl. native `struct` layouts; float32 `duration` opaque four bytes | induction on nested framing |
| C19 | string parser/printer, `int()` on ASCII text; accepted strings characterised exactly (Spec/NumberSpec.v) | string lemmas |
| C20–C39 | scheduler state machine with all managers; events = messages and loop bodies | inductive invariants over all event sequences; history counters in the trace |
| C40–C45 | graph manager + `graphlib.TopologicalSorter` | invariants; denotational evaluation relation |
| C46–C49, C52, C65, C66 | worker agent (task manager, processor manager, heartbeat, timeout) | invariants over interleavings |
| C50, C51, C67, C68 | processor and cache cleaner, thread steps | invariants; refutation by interleaving |
| C53–C55, C60, C61, C69–C71 | client: interleaved steps of submit/get/cancel with its connector thread | invariants over interleavings; theorems about all continuations |
| C56–C59 | `map`, argument conversion, graph splitting, checking and construction | induction on argument lists and graphs |
| C62 | composition of the client, scheduler, worker and processor models over channels | content invariant on all messages in flight |
| C72 | same composition | same invariant: every call is causally backed by a user's request |
| C73, C74 | scheduler with graphs under well-behaved traffic (`Spec/TrafficSpec.v`) | invariant tying the tables, each graph's sorter and the history; weakest preconditions without exceptions |
| C75 | same | from any state of the C73 invariant a completing schedule is constructed; induction on pending graphs, then on ids without result |
| C76–C79 | `Model/Startup.v`: settings from command lines and `SchedulerClusterCombo` to the parts, the subset of `argparse` with exact names, values as separate words or after `=` | induction on argument lists; string lemmas; C77 by a relation between runs of the scheduler with two configurations |
| C80 | same file: phases of the cluster process, signals between any two steps | invariant; refutations for all states of the phase concerned |
| C81 | `Model/System.v`; conditions on executions in `Spec/FlowSpec.v` | one invariant (`Proofs/FlowSystem.v`) that says where every task is: with a client, on its way, with the scheduler, with a worker; preserved by every orderly action |
| C82 | the same | from the invariant of C81: end the calls of submit, exchange all messages between clients and scheduler (measure: stale function responses, then weights of messages and buffered tasks), let each worker do its work (measure `work` in `Proofs/FlowWork.v`), dispatch the remaining tasks one by one, deliver the results |
| C83 | the same; calls counted in `Spec/OnceSpec.v` | `Proofs/FlowOnce.v`: with the invariant of C81, a task is in at most one place, and where it can still be run it has not been run; preserved by every orderly action. The counterexample is a concrete execution |
| C84 | `Model/Processor.v` with its two threads; `Spec/CacheSpec.v` says when a function is idle | `Proofs/ProcessorCache.v`: invariants that relate the recorded time of last use and the list of functions to delete to the messages received |
| C85 | the whole system; `Spec/PunctualSpec.v` bounds delays and the intervals of the heartbeat loop | `Proofs/FlowClock.v`: along an orderly prefix the heartbeat of each worker is at rest, on its way, or answered, with a bound on the times of each; this gives the missing condition of orderly for the next action. Tightness by two concrete executions |
| C86 | the whole system; conditions in `Spec/GraphFlowSpec.v` | `Proofs/GraphFlow.v`: the invariant of C81 for the messages that are not about graphs (`plain`, `Proofs/GraphClient.v`), the scheduler's invariant for graphs (C73) for the rest, and what each client still expects of its graphs. `Proofs/GraphRounds.v` says what a round of the scheduler does to each part when graphs are open. The crash by a concrete execution |
| C87 | the same, `nodes_intact` and `graphs_resolved` in `Spec/GraphFlowSpec.v` | from the invariant of C86, as C82: end the calls, exchange all messages with clients (`Proofs/GraphFinish.v`), let workers do what they hold (`GraphDrive.v`); then give, run and finish one task after the other, starting the next pending graph when nothing is left (`GraphEnd.v`; measure: ids of all tasks and nodes without a result). `GraphTold.v`, `GraphDone.v`: a client's graph is either waiting for its answer or all its futures have values, and at the end the scheduler has answered every graph (`SchedFinish.v`) |
| C88 | as C86; calls counted in `Spec/OnceSpec.v` | `Proofs/GraphOnce.v`: as C83, from the invariant of C86; a task or node once handed to a processor is still there, on its way back, or has a result in the scheduler's log, and then it is sent to nobody |
| C89 | as C85 and C86 | `Proofs/GraphClock.v`: as C85 (where the heartbeat of each worker is, and when it was sent), from the invariant of C86; what each round of the scheduler sends to workers |
| C90 | client steps of C53 and `f_result` | `Proofs/CancelProofs.v`: a cancelled future stays cancelled under every step, a resolved one is resolved once (C53) |
| C91 | `Model/EventLoop.v`: start times of a loop's turns; scheduler and agent as before | `Proofs/LoopProofs.v`: the last turn of a loop is recent; what it left behind (C33, C28, C52) and what can change since |
| C92 | `Model/Counters.v`: the counters of binder and connector, counted where the code counts | `Proofs/CountersProofs.v`: induction over the events; names of types are distinct |
| C93 | `Model/MemoryCleaner.v`: garbage collection and trimming by the cleaner thread | `Proofs/MemoryProofs.v`: induction over the turns; the last turn is recent (C91) |
| C94 | executions of `Model/System.v` with deaths of workers (`Spec/CrashSpec.v`) | `Proofs/CrashSched.v`: what giving up workers does, exactly; `Proofs/CrashFlow.v`: the invariant of C81 holds except at the workers given up; to finish, let the live workers come to rest, hear each once more, let the timeout of the dead pass, give them up, then as C82 |
| C95 | executions with graphs and deaths of workers (`Spec/CrashGraphSpec.v`) | `Proofs/GraphFlow.v`: the invariant of C86, except for workers that were given up; `Proofs/CrashGraph.v`: giving up the silent keeps it; `Proofs/CrashGraphFinish.v`: to finish, as C94 and then as C87 with the live workers only |
| C96 | as C95; calls counted in `Spec/OnceSpec.v` | `Proofs/GraphOnce.v`: the invariant of C88, except for workers that were given up; `Proofs/CrashOnce.v`: giving up the silent keeps it; a task with a result is in nobody's hands, so nobody calls its code |
| C97 | `Model/MonitorLoop.v`: the subscription and the keys of `top.py` over C64's screens | induction on arrivals; insertion sort is the stable descending order |
| C98 | `Model/Published.v`: from the scheduler's report to the monitor's | C35, C92 and C64 put together; the rows of the workers are a permutation of the registered ones |
| C99 | as C20; published states read off the history in `Spec/StateSpec.v` | `Proofs/StateProofs.v`: an invariant between queue, running tasks and last published states, through every handler; `Proofs/NameProofs.v`: an invariant tying tables and published names to the messages received |
| C100 | `Model/Logging.v` (`setup_logger`, CPython's `dictConfig` as used, `ScopedLogger` with floats of `Model/Float.v`); destinations and durations in `Spec/LoggingSpec.v` | `Proofs/LoggingProofs.v`: induction over the paths; the floor of a rounded quotient is exact below 2^53 |
| C101 | `Model/MonitorCommand.v`: the command line of `top.py`, on the parser of `Model/Startup.v` | `Proofs/MonitorCommandProofs.v`: the induction over command lines of C76 and the address round trip of C19 |
| C63 | `Model/Formatter.v`: formatter.py with exact 53-bit floats | arithmetic; induction on the number of digits |
| C64 | `Model/Top.v`: tables of `top.py` from report to printed texts | induction on rows and columns |

## 4. Trusted base

* Coq's kernel (8.16.1) including its conversion/`vm_compute` evaluator.
* The correspondence between `Model/*.v` and the Python source, which is by
  reading: every definition cites the lines it models and lists simplifications.
* The semantics of Python, asyncio, `heapq`, `graphlib`, `struct` as transcribed.
* `Print Assumptions` output is listed in section 6.

## 5. What is modelled and what is not

| `/repo/scaled` | model |
|---|---|
| `utility/queues/async_indexed_queue.py` | `Model/IndexedQueue.v` (pointer level) |
| `utility/queues/async_priority_queue.py`, CPython `heapq` | `Model/PriorityQueue.v`, `Model/Heapq.v` |
| `utility/one_to_many_dict.py`, `utility/key_value_set.py` | `Model/OneToManyDict.v` |
| `utility/zmq_config.py` | `Model/ZMQConfig.v` |
| `utility/formatter.py`, `entry_points/top.py` (command line, subscription, keys, sorting, report to printed tables) | `Model/Formatter.v`, `Model/Top.v`, `Model/MonitorLoop.v`, `Model/MonitorCommand.v`, the report in between in `Model/Published.v` |
| `protocol/python/message.py` | `Model/Message.v` (byte exact) |
| `io/async_binder.py`, `io/async_connector.py`, `io/sync_connector.py`: frames put on and taken from the wire | `Model/Transport.v`, counters in `Model/Counters.v` |
| `scheduler/allocators/queued.py` | `Model/Allocator.v`, floats of Python in `Model/Float.v` |
| `scheduler/main.py`, `task_manager.py`, `function_manager.py`, `worker_manager.py`, `client_manager.py`, `graph_manager.py`, `status_reporter.py` | `Model/SchedulerState.v`, `Model/Scheduler.v` |
| `graphlib.TopologicalSorter` (as used by `graph_manager.py`) | `Model/Sorter.v` |
| `worker/worker.py`, `worker/agent/task_manager.py`, `processor_manager.py`, `heartbeat_manager.py`, `timeout_manager.py` | `Model/Worker.v` |
| `worker/agent/processor/processor.py`, `cache_cleaner.py` | `Model/Processor.v`, memory in `Model/MemoryCleaner.v` |
| `client.py` | `Model/Client.v` (threads), `Model/ClientCalls.v` (`map`, argument conversion, graph splitting and construction) |
| `entry_points/scheduler.py`, `entry_points/cluster.py`, `cluster/cluster.py`, `cluster/combo.py`, `cluster/scheduler.py`, `io/config.py` (defaults), `utility/event_loop.py: register_event_loop`, `Scheduler.__init__` | `Model/Startup.v` |
| `utility/event_loop.py: create_async_loop_routine` | `Model/EventLoop.v` (when the turns start; elsewhere each turn is a step) |
| `utility/logging/*` | `Model/Logging.v` |
| client, scheduler, workers and processors connected | `Model/System.v` |

Not modelled: the operating system's processes (a cluster's workers start in one step),
`argparse` beyond exact option names (`--name value` or `--name=value`), rotation of log files,
`mixins.py` files (interfaces), the sockets of ZeroMQ, the `curses` screen of `top.py`,
`protocol/python/serializer/default.py` (cloudpickle: user values and functions are
byte strings; the outcome of decoding and running them is an input of the step),
`psutil` measurements (inputs of the step).

Each simplification is marked SIMPLIFICATION beside the definition concerned: float
means in balancing are exact rationals (justified by C11_float_mean); float32 durations are opaque bytes; the clock is
constant within one atomic step; single dictionary operations are atomic between
threads, and the RuntimeError of iterating over a dictionary that another thread
changes is left out.

## 6. Assumptions

Every theorem of `Props/*.v` is followed by `Print Assumptions`, and for every one
the answer is `Closed under the global context`: no axioms, neither of our own nor
of the standard library, are used.  (`coqchk` run over the closure of loaded
libraries lists the axioms of `Coq.ssr.ssrunder`, which std++ loads; no theorem here
depends on them.)

Hypotheses that stand for facts about the environment are visible in the statements:
`identified` (uuids and md5 hashes identify; C62, C72), distinct task ids (several
scheduler and worker properties), honest workers (C41), well-behaved traffic (`polite`,
`polite_graphs`; C35, C37, C73-C75), orderly executions of the whole system (`orderly`,
`orderly_graphs`; C81-C83, C85-C89).

## 7. Defects found while modelling

Statements of these are theorems (`_refuted`, or properties that say "False: ...").

* `PriorityQueue.max_priority` leaves the locator stale (C06).
* An indexed queue with colliding hashes (C02); malformed frames end the receiver (C18).
* A task id queued twice ends the scheduler with KeyError.
* A cancel that reaches the scheduler while the task is parked in the dispatch loop is ignored.
* The graph manager can be crashed by a graph (C43, C44); a node rejected with
  NoWorker leaves its graph unanswered for ever; an exception of user code in a node ends
  the scheduler while another node waits for a worker (C86).
* A NotFound result for a graph node that a worker has ends the scheduler with ValueError;
  results are accepted from any sender, not only from the worker that has the task.
* An identity or function name that is not UTF-8 ends the status report.
* The agent never notices the end of its processor (C67); a late function response
  ends the processor (C68).
* Client: tasks can be forgotten in a race (C55), a failed graph strands futures
  (C60), Canceled and NotFound results strand futures (C61), cancelled futures
  (C69), NoWorker echoes (C70) and early echoes (C71) end the connector thread.
* `map` over a one-shot iterator returns []; values of keyword-only parameters are
  dropped; a positional-only name clashes with `**kwargs`; repeated keys in `get` give
  wrong values (C56-C59).
* `load_balance_seconds` only switches balancing on and off (C77); a combo's event loop does
  not reach its scheduler (C78); signals to a cluster can be lost or raise (C80).
* Logging to the terminal and to a file named "console" serves only one of them (C100).
* `format_bytes` can print "1024.0m"; the monitor raises for a lag of 1000 s or more (C63, C64).
