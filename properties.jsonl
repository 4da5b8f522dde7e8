{"id": "C01", "title": "IndexedQueue is a FIFO with removal", "statement": "Whatever sequence of put, get, remove, membership tests and length queries is applied to an IndexedQueue, every call returns (or raises) exactly what the same call does on a plain duplicate-free FIFO list: put of a present item raises KeyError, get of an empty queue raises QueueEmpty, remove of an absent item raises KeyError, and otherwise items come out in insertion order with removed items skipped. Assumes hash() does not collide on the items used.", "quantifier": "every finite sequence of queue operations, every item type with an injective hash, every queue size", "why_tests_cant": "the linked list has six pointer-surgery cases whose interaction depends on the whole history; tests run one short history", "anchors": ["scaled/utility/queues/async_indexed_queue.py: IndexedQueue, _DoubleLinkedList, _IndexedDoubleLinkedQueue"]}
{"id": "C02", "title": "IndexedQueue confuses items whose hashes collide", "statement": "Two different items with the same hash() are not distinguished: with one of them queued, the other is reported as present, cannot be put, and removing it removes the first. The documented contract (items only need to be hashable and unique) is therefore false; it needs collision-free hashes.", "quantifier": "existence of a history and two colliding items", "why_tests_cant": "a test suite never hits a 64-bit hash collision by chance; Python's own hash(-1)==hash(-2) is enough", "anchors": ["scaled/utility/queues/async_indexed_queue.py: _IndexedDoubleLinkedQueue.__contains__, put, remove"]}
{"id": "C03", "title": "OneToManyDict gives every value exactly one owner", "statement": "After any sequence of add, remove_value and remove_key, OneToManyDict behaves as a finite function from values to keys: get_key is that function, get_values is its preimage, a key is present iff it owns at least one value, adding an owned value under another key raises ValueError and changes nothing, and removals remove exactly what they name.", "quantifier": "every sequence of operations, all keys and values", "why_tests_cant": "two dictionaries must agree after every history; tests do not cover this class at all", "anchors": ["scaled/utility/one_to_many_dict.py: OneToManyDict"]}
{"id": "C04", "title": "KeyValueDictSet is a relation without empty keys", "statement": "After any sequence of add, remove_value and remove_key, KeyValueDictSet represents exactly the set of (key, value) pairs added and not removed, and a key tests as present iff some pair with that key remains.", "quantifier": "every sequence of operations, all keys and values", "why_tests_cant": "the graph manager decides from `key in dict` whether an intermediate result may be thrown away; this must hold after every history", "anchors": ["scaled/utility/key_value_set.py: KeyValueDictSet"]}
{"id": "C05", "title": "Priority queue always yields the least entry", "statement": "For any sequence of put, get, remove and decrease_priority, the priority queue holds exactly the entries put and not taken, with the priorities last given to them, and get returns the entry with the smallest (priority, data) pair.", "quantifier": "every sequence of put/get/remove/decrease_priority with distinct data and non-negative priorities, any size", "why_tests_cant": "a binary heap is only correct if the order invariant survives every sift in every shape of tree", "anchors": ["scaled/utility/queues/async_priority_queue.py: PriorityQueue"]}
{"id": "C06", "title": "Peeking at the best priority disturbs the priority queue", "statement": "Calling max_priority is expected to be a read-only peek. It is one only if the peeked entry is taken by get before it is decreased or removed; otherwise it is not: it replaces the top entry by a copy that later decrease_priority and remove calls no longer reach, so a following decrease is silently lost, a second one raises ValueError, and a remove raises AssertionError.", "quantifier": "existence of a short history; the positive part ranges over all histories in which every peek is followed by a get before any decrease or remove", "why_tests_cant": "needs a particular interleaving of peek, decrease and remove that no unit test performs", "anchors": ["scaled/utility/queues/async_priority_queue.py: PriorityQueue.max_priority, decrease_priority, remove"]}
{"id": "C07", "title": "A worker is never given more tasks than its queue size", "statement": "With per_worker_queue_size n >= 0, at every moment of every history each worker has at most n tasks assigned to it that are neither finished nor taken back.", "quantifier": "every sequence of worker joins/leaves, assignments, removals and availability checks, every n", "why_tests_cant": "depends on the count kept in the heap never falling below the real count in any history", "anchors": ["scaled/scheduler/allocators/queued.py: QueuedAllocator.assign_task, remove_task"]}
{"id": "C08", "title": "Assignment views agree", "statement": "At every moment, the worker reported for a task is registered and has that task in its own set, every task in a worker's set is reported as assigned to that worker, and so no task is assigned to two workers.", "quantifier": "every sequence of allocator operations", "why_tests_cant": "two dictionaries have to stay inverse to each other through every history", "anchors": ["scaled/scheduler/allocators/queued.py: QueuedAllocator"]}
{"id": "C09", "title": "Tasks go to a least-loaded worker, and are refused only when all are full", "statement": "A new task is assigned to a registered worker holding the minimum number of tasks, and assignment reports failure exactly when every worker already holds the maximum. Holds for every history in which availability checks are followed by an assignment before any task leaves; without that restriction it is false.", "quantifier": "every sequence of allocator operations meeting the stated restriction, any number of workers", "why_tests_cant": "needs the heap order and the counts to be right in every reachable state", "anchors": ["scaled/scheduler/allocators/queued.py: QueuedAllocator.assign_task", "scaled/utility/queues/async_priority_queue.py"]}
{"id": "C10", "title": "Removing a worker returns exactly its tasks", "statement": "remove_worker returns exactly the tasks currently assigned to that worker, after which none of them is assigned anywhere; other workers' tasks are untouched; removing an unknown worker returns nothing and changes nothing.", "quantifier": "every reachable allocator state, every worker", "why_tests_cant": "a missed task would be lost for ever; only shows up for particular histories", "anchors": ["scaled/scheduler/allocators/queued.py: QueuedAllocator.remove_worker"]}
{"id": "C11", "title": "Load-balance advice is sound", "statement": "Advice is given only when some worker is idle and some worker has tasks; then it names exactly the workers holding more than the mean, and tells each to give up its count minus the floor of the mean: at least one task, never more than it has, never leaving it below the floor of the mean.", "quantifier": "every assignment of counts to workers (exact rational mean)", "why_tests_cant": "an arithmetic claim over all count vectors", "anchors": ["scaled/scheduler/allocators/queued.py: QueuedAllocator.balance"]}
{"id": "C12", "title": "The availability check tells the truth", "statement": "has_available_worker returns True iff some registered worker holds fewer tasks than the maximum. True in histories where each check is followed by an assignment before any task leaves; false in general: a finished task can leave its slot occupied for ever, so that an idle worker is reported as full.", "quantifier": "every history with the restriction; existence of a counter-history without", "why_tests_cant": "needs a check, then a task completion, in that order with no assignment between", "anchors": ["scaled/scheduler/allocators/queued.py: QueuedAllocator.has_available_worker", "scaled/utility/queues/async_priority_queue.py: max_priority"]}
{"id": "C13", "title": "Worker statistics add up", "statement": "For every registered worker the reported sent count is the number of tasks assigned to it and free + sent equals the queue size, so free is never negative when the queue size is non-negative.", "quantifier": "every reachable allocator state", "why_tests_cant": "depends on all histories", "anchors": ["scaled/scheduler/allocators/queued.py: QueuedAllocator.statistics"]}
{"id": "C14", "title": "Every message survives the wire", "statement": "For every message of the twenty protocol classes whose numbers fit the wire format, deserialize(serialize(m)) = m, including graph tasks with any number of functions, targets, nodes and arguments.", "quantifier": "every message value", "why_tests_cant": "variable-length nested framing with counters; tests use a handful of shapes", "anchors": ["scaled/protocol/python/message.py: all serialize/deserialize"]}
{"id": "C15", "title": "Frames identify the message", "statement": "The type code plus payload frames determine the message: two different messages never produce the same frames, and the receiver always selects the class the sender used.", "quantifier": "all pairs of messages", "why_tests_cant": "an injectivity claim over all messages of all classes", "anchors": ["scaled/protocol/python/message.py: MessageType, PROTOCOL", "scaled/io/async_binder.py: AsyncBinder.send, routine"]}
{"id": "C16", "title": "Whatever one side can send, the other side delivers", "statement": "Frames produced by the scheduler's binder, a worker's connector or a client's connector always pass the receiver's validity check and reach the callback as the message that was sent.", "quantifier": "all messages, all three transports", "why_tests_cant": "length thresholds differ between transports (3 versus 2 frames) and some messages have empty payloads", "anchors": ["scaled/io/async_binder.py: AsyncBinder", "scaled/io/async_connector.py: AsyncConnector", "scaled/io/sync_connector.py: SyncConnector"]}
{"id": "C17", "title": "Exactly which messages cannot be encoded", "statement": "serialize raises struct.error exactly when a number does not fit its field (queued task count and scaled cpu above 65535, latency or lengths above 2^32-1, resident sizes above 2^64-1, or a negative number) and raises ValueError exactly for a graph task with no functions; every other message is encoded.", "quantifier": "all messages", "why_tests_cant": "boundary claim over every field", "anchors": ["scaled/protocol/python/message.py: Heartbeat.serialize, BalanceRequest.serialize, GraphTask.serialize"]}
{"id": "C18", "title": "A malformed message can kill the receiver", "statement": "One would expect any list of frames to be either delivered or ignored. It is not so: an announced but unimplemented message type passes the validity check and then raises KeyError, and a task with a dangling argument frame raises IndexError, in the receiver's loop, which ends the process.", "quantifier": "all frame lists; existence of crashing ones", "why_tests_cant": "fuzzing finds some; the claim is about all inputs", "anchors": ["scaled/io/async_binder.py: AsyncBinder.routine", "scaled/protocol/python/message.py: MessageType.GraphTaskCancelEcho, PROTOCOL, Task.deserialize"]}
{"id": "C19", "title": "Addresses round-trip", "statement": "Parsing the printed address of a valid configuration gives back that configuration, provided a tcp host contains no colon and no host makes the text ambiguous; and parsing accepts exactly the strings made of a known scheme, a colon with two slashes and a host, followed for tcp, and only for tcp, by one colon and a number as Python's int reads it; every other string is refused with ValueError.", "quantifier": "every configuration and every string", "why_tests_cant": "string claim over all hosts and ports", "anchors": ["scaled/utility/zmq_config.py: ZMQConfig"]}
{"id": "C20", "title": "At most one result per accepted task", "statement": "In every history the number of results the scheduler sends for a task id never exceeds the number of times it acknowledged a submission of that id with SubmitOK, so each accepted task is answered at most once, however often workers die, time out, answer late, are rebalanced, or tasks are cancelled.", "quantifier": "every interleaving of client, worker and timer events, up to and including a crash", "why_tests_cant": "needs every ordering of late results, reroutes, cancels and disconnects", "anchors": ["scaled/scheduler/task_manager.py: VanillaTaskManager", "scaled/scheduler/worker_manager.py: VanillaWorkerManager.on_task_done"]}
{"id": "C21", "title": "Results go to the client that submitted the task", "statement": "Whenever the scheduler sends a result for a task to a client, that client earlier received SubmitOK for that task, or used the task's id as the id of a graph it submitted.", "quantifier": "every history, any number of clients", "why_tests_cant": "mix-ups need several clients and particular interleavings", "anchors": ["scaled/scheduler/task_manager.py: on_task_done", "scaled/scheduler/client_manager.py: VanillaClientManager"]}
{"id": "C22", "title": "Results are relayed unmodified", "statement": "Every task result sent to a client carries a status and payload that the scheduler received in a result message for that same task, except the empty Canceled result it creates for a task cancelled while still queued.", "quantifier": "every history", "why_tests_cant": "quantifies over all histories and payloads", "anchors": ["scaled/scheduler/task_manager.py: on_task_done, on_task_cancel"]}
{"id": "C23", "title": "No accepted task is lost", "statement": "While the scheduler runs, every accepted, individually submitted task that has not been answered is waiting in the scheduler's queue, or is the one task being matched to a worker, or is assigned to a currently registered worker; worker death, timeout, disconnection and rebalancing never drop it.", "quantifier": "every interleaving of events", "why_tests_cant": "each failure path (timeout, disconnect, balance, late result) has to restore the task in every state", "anchors": ["scaled/scheduler/task_manager.py: on_task_reroute, routine", "scaled/scheduler/worker_manager.py: on_balance_response, on_disconnect, __clean_workers"]}
{"id": "C24", "title": "Tasks are sent only to live workers and with their own content", "statement": "Every Task message the scheduler sends goes to a worker that has sent a heartbeat and has not been removed since, and carries the function and arguments accepted for that id.", "quantifier": "every history", "why_tests_cant": "depends on the registration state at every send in every history", "anchors": ["scaled/scheduler/worker_manager.py: assign_task_to_worker", "scaled/scheduler/task_manager.py: routine"]}
{"id": "C25", "title": "A task is dispatched again only after it was taken back", "statement": "The number of times a task is sent to workers never exceeds the number of times it was accepted plus the number of times it was taken back from a worker (worker lost or task returned by balancing); so a task is never running on two live workers at once.", "quantifier": "every history", "why_tests_cant": "requires every ordering of reroutes and assignments", "anchors": ["scaled/scheduler/task_manager.py: routine, on_task_reroute", "scaled/scheduler/allocators/queued.py: assign_task"]}
{"id": "C26", "title": "A function stays available while a task needs it", "statement": "From acceptance of an individually submitted task until it is answered, its function is in the scheduler's cache, so a worker asking for it gets OK and its content; neither expiry nor deletion removes it.", "quantifier": "every history, any retention time and any clock", "why_tests_cant": "expiry races with acceptance only in particular histories", "anchors": ["scaled/scheduler/function_manager.py: VanillaFunctionManager.routine, on_task_use_function, __on_function_scheduler_delete"]}
{"id": "C27", "title": "Function content never changes under its id", "statement": "While a function id is in the scheduler's cache its name and content are those of the Add that created the entry; a second Add answers Duplicated and changes neither; Check and Request answer OK iff the id is present, Request with that content.", "quantifier": "every history", "why_tests_cant": "quantifies over all histories of adds, expiries and requests", "anchors": ["scaled/scheduler/function_manager.py: on_function"]}
{"id": "C28", "title": "Idle functions and only idle functions expire", "statement": "The periodic clean-up removes exactly the functions that no unfinished task uses and that were neither added nor used for longer than the retention time, and tells every registered worker to drop each of them.", "quantifier": "every reachable state, every clock value", "why_tests_cant": "timing claim over all states", "anchors": ["scaled/scheduler/function_manager.py: routine"]}
{"id": "C29", "title": "A Delete request never deletes a function", "statement": "One would expect a Delete request for a known function no task uses to remove it and say so. It does not: the scheduler raises ValueError and terminates; the only answers ever sent to a Delete are NotExists and StillHaveTask, and no Delete ever removes anything.", "quantifier": "every reachable state", "why_tests_cant": "the branch is never exercised by the test suite", "anchors": ["scaled/scheduler/function_manager.py: __on_function_scheduler_delete"]}
{"id": "C30", "title": "Every submission is echoed once and correctly", "statement": "Each Task message gets exactly one TaskEcho: FunctionNotExists iff the function is unknown, otherwise NoWorker or SubmitOK; NoWorker is sent only if the configured waiting limit is non-negative and reached, and is always sent if moreover every registered worker is full; only SubmitOK changes the scheduler's task records, storing the task and appending it to the queue. (NoWorker can be sent although a worker is idle: shown by a counterexample.)", "quantifier": "every reachable state, every task, every limit", "why_tests_cant": "decision logic over all states", "anchors": ["scaled/scheduler/task_manager.py: on_task_new"]}
{"id": "C31", "title": "Cancelling does what it says", "statement": "In every history, an acceptance of a task that the scheduler itself answered (Canceled) is never sent to a worker afterwards. In well-behaved traffic (see C37), cancelling a task still queued answers Canceled to its client; cancelling an assigned task sends TaskCancel to exactly the worker holding it and changes no task record; cancelling an unknown task sends nothing and changes nothing.", "quantifier": "every reachable state, every task id", "why_tests_cant": "three-way case split over all states", "anchors": ["scaled/scheduler/task_manager.py: on_task_cancel", "scaled/scheduler/worker_manager.py: on_task_cancel"]}
{"id": "C32", "title": "A cancel can be lost", "statement": "One would expect a cancel for any accepted unanswered task to have an effect. It need not: while no worker is connected the oldest task is held by the dispatch loop, a cancel for it is dropped, and the task is executed once a worker connects.", "quantifier": "existence of a history", "why_tests_cant": "needs a cancel to arrive while the dispatch loop is parked with the task in hand", "anchors": ["scaled/scheduler/task_manager.py: routine, on_task_cancel", "scaled/scheduler/allocators/queued.py: assign_task"]}
{"id": "C33", "title": "Silent workers are removed, live ones are not", "statement": "Each clean-up round removes exactly the workers whose last heartbeat is older than the timeout, and puts every task they held back in the queue; every other worker and its tasks are untouched.", "quantifier": "every reachable state, every clock value", "why_tests_cant": "timing claim over all states", "anchors": ["scaled/scheduler/worker_manager.py: __clean_workers, __disconnect_worker, on_heartbeat"]}
{"id": "C34", "title": "Balancing is triggered by exactly k equal advices", "statement": "Balance requests are sent in a round iff balancing is enabled, the advice is non-empty and this is exactly the k-th consecutive round with that same advice, where k is the configured trigger count and k >= 2; with k <= 1 no balance request is ever sent.", "quantifier": "every sequence of rounds, every advice history, every k", "why_tests_cant": "a claim about whole histories of rounds", "anchors": ["scaled/scheduler/worker_manager.py: __balance_request"]}
{"id": "C35", "title": "The status report is available and adds up", "statement": "In well-behaved traffic (see C37) the periodic status report always succeeds; the numbers of queued and running tasks together with the one task being matched account for all accepted unanswered tasks, the four outcome counters are the numbers of results sent with each outcome, the per-client counts are the unanswered tasks of each client, and each registered worker's row shows its last heartbeat and its outstanding tasks. (With a peer identity that is not UTF-8 the report terminates the scheduler.)", "quantifier": "every history", "why_tests_cant": "the report indexes several dictionaries that must stay aligned in every history", "anchors": ["scaled/scheduler/status_reporter.py: StatusReporter.routine", "scaled/scheduler/task_manager.py: statistics", "scaled/scheduler/worker_manager.py: statistics", "scaled/scheduler/function_manager.py: statistics", "scaled/scheduler/client_manager.py: statistics"]}
{"id": "C36", "title": "Dispatch picks the oldest task and a least-loaded worker, but not in submission order", "statement": "In well-behaved traffic (see C37), a round of the dispatch loop sends the task it is holding, else the head of the queue, to a registered worker with the fewest outstanding tasks, which has room; it sends nothing if there is no worker, and if all are full it moves that task to the back of the queue. Tasks therefore need not start in submission order: a later task can be started while an earlier one waits.", "quantifier": "existence of a history; positive part over all states with room", "why_tests_cant": "needs full workers and a dispatch round at the right moment", "anchors": ["scaled/scheduler/task_manager.py: routine"]}
{"id": "C37", "title": "The scheduler survives well-behaved peers", "statement": "With the default unlimited waiting queue, distinct task ids, UTF-8 identities and function names and no graph tasks, if the dispatch loop runs after every accepted task (as the event loop does), no sequence of heartbeats, submissions, cancels, results, balance answers, function checks/adds/requests, disconnects and clean-ups makes the scheduler raise an exception.", "quantifier": "every such history, any number of clients and workers", "why_tests_cant": "an absence-of-exceptions claim over all histories", "anchors": ["scaled/scheduler/main.py: Scheduler.on_receive_message, get_loops"]}
{"id": "C38", "title": "Valid peer traffic can terminate the scheduler", "statement": "C37 without its restrictions is false: with a waiting limit of zero, a rejected submission followed by completions leaves a worker permanently full and then terminates the scheduler; resubmitting a queued task id terminates it too.", "quantifier": "existence of histories of protocol-conforming messages", "why_tests_cant": "needs specific configurations and interleavings", "anchors": ["scaled/utility/queues/async_priority_queue.py: max_priority", "scaled/scheduler/allocators/queued.py: has_available_worker", "scaled/scheduler/task_manager.py: on_task_new"]}
{"id": "C39", "title": "Disconnecting a worker is acknowledged once and is idempotent", "statement": "A DisconnectRequest for a registered worker removes it, requeues its tasks and is answered with one DisconnectResponse to the requester; for an unregistered worker it does nothing and sends nothing.", "quantifier": "every reachable state", "why_tests_cant": "repeated and crossed disconnects occur only under races", "anchors": ["scaled/scheduler/worker_manager.py: on_disconnect"]}
{"id": "C40", "title": "Graph nodes run only after their dependencies, with their results", "statement": "A task sent to a worker that no client submitted individually is a node of a submitted graph, accepted for the client that submitted the graph, in which every reference to another node has been replaced by a payload a worker had already reported as that node's success. A node enters the task queue at most once per submission; it is sent out again only after having been taken back.", "quantifier": "every graph, every history, every completion order", "why_tests_cant": "exponentially many completion orders and graph shapes", "anchors": ["scaled/scheduler/graph_manager.py: __check_one_graph, __get_argument, __mark_node_done"]}
{"id": "C41", "title": "A graph result is the value of the graph", "statement": "If every success reported for a task carries its function applied to the arguments it was sent, references and targets are nodes of their graph, and node ids are not shared between submissions, then any successful graph result carries, for each target in order, the value obtained by evaluating the graph directly; and that value is unique when node ids are distinct.", "quantifier": "every graph, every target list, every schedule", "why_tests_cant": "end-to-end claim over all graphs and schedules", "anchors": ["scaled/scheduler/graph_manager.py"]}
{"id": "C42", "title": "A graph is answered once, when all nodes are done or one fails", "statement": "There are never more graph results for a graph id than submissions of it. A Success result is sent only when a worker has reported success for every node of the graph, and carries such results for its targets. Any other result has the status and the payload of one node of the graph: of the worker's report being handled, or the empty payload of a cancellation.", "quantifier": "every graph and history", "why_tests_cant": "interleavings of node completions, failures and cancels", "anchors": ["scaled/scheduler/graph_manager.py: on_task_done, __finish_one_graph, __clean_graph"]}
{"id": "C43", "title": "A graph node cannot use the same input twice", "statement": "A node such as add(x, x) with x another node should work. It does not: such a node is never sent to a worker, in any history; as soon as x has finished, the scheduler raises KeyError and terminates.", "quantifier": "every history for 'never sent'; existence of a history for the crash", "why_tests_cant": "the suite has no such graph", "anchors": ["scaled/scheduler/graph_manager.py: __get_task_result", "scaled/utility/key_value_set.py: remove_value"]}
{"id": "C44", "title": "Cancelling or failing a graph with queued nodes ends the scheduler", "statement": "Cancelling a graph, or a node failing, while another ready node of the graph is still queued in the scheduler should drop that node. Instead there are histories where the scheduler raises KeyError and terminates. Cancelling a graph that already finished can raise ValueError and terminate it too.", "quantifier": "existence of histories", "why_tests_cant": "needs the cancel to arrive while a sibling is queued", "anchors": ["scaled/scheduler/graph_manager.py: __clean_graph, on_graph_task_cancel", "scaled/scheduler/task_manager.py: on_task_cancel"]}
{"id": "C45", "title": "An accepted graph may never be answered", "statement": "With a waiting limit, a ready node refused for lack of workers is echoed NoWorker and never retried, while the graph waits for it for ever: after the history exhibited no continuation that does not reuse its ids ever answers the graph, not even one that cancels it.", "quantifier": "every continuation of the history exhibited", "why_tests_cant": "a claim about all futures of a state", "anchors": ["scaled/scheduler/graph_manager.py: __check_one_graph", "scaled/scheduler/task_manager.py: on_task_new"]}
{"id": "C46", "title": "A worker runs one task at a time, in order", "statement": "The agent hands the processor a task only when the previous one was answered or cancelled, tasks are handed over in the order received (skipping cancelled and given-back ones; ids distinct), only a result for the current task is forwarded, word for word, and when the processor is up and idle the oldest waiting task is handed over within three rounds of the task loop.", "quantifier": "every interleaving of scheduler messages, processor messages and agent loop steps", "why_tests_cant": "lock, event and queue interact; needs all interleavings", "anchors": ["scaled/worker/agent/processor_manager.py: VanillaProcessorManager", "scaled/worker/agent/task_manager.py: VanillaTaskManager"]}
{"id": "C47", "title": "A worker accounts for every task", "statement": "Every task a worker received (with distinct ids) is, until it is answered or given back, in exactly one of: queued, waiting for the processor, running; it is answered with a result or given back at most once, except that a cancel of the task waiting for the processor is answered NotFound although it is still there.", "quantifier": "every interleaving", "why_tests_cant": "conservation over all interleavings", "anchors": ["scaled/worker/agent/task_manager.py", "scaled/worker/agent/processor_manager.py"]}
{"id": "C48", "title": "Giving tasks back on a balance request", "statement": "A balance request for n returns the min(n, queued) oldest queued tasks, in order, removes exactly those, never the running one, and the worker will not run them.", "quantifier": "every agent state, every n", "why_tests_cant": "all queue states", "anchors": ["scaled/worker/agent/task_manager.py: on_balance_request"]}
{"id": "C49", "title": "Every cancel gets exactly one truthful answer", "statement": "Cancelling a queued or running task answers Canceled once and the task produces no other result. Not always: cancelling a task waiting for the processor answers NotFound and the task still runs, and a cancel arriving while the processor is idle raises AttributeError and ends the worker.", "quantifier": "every agent state for the positive part; existence for the rest", "why_tests_cant": "needs the cancel to arrive in a particular state", "anchors": ["scaled/worker/agent/task_manager.py: on_cancel_task", "scaled/worker/agent/processor_manager.py: on_cancel_task"]}
{"id": "C50", "title": "The processor answers each task once with what the function did", "statement": "For each task (tasks sent one at a time, functions only on request), once its function is available, the processor sends exactly one result: Success with the serialized return value if argument decoding, the call and result encoding succeed, otherwise Failed with the serialized exception (unless the exception cannot be pickled or the process ends, C67); a function not cached is requested exactly once per waiting task.", "quantifier": "every sequence of tasks, function responses, deletes and expiries handled by the processor", "why_tests_cant": "all sequences of messages and cache states", "anchors": ["scaled/worker/agent/processor/processor.py: Processor"]}
{"id": "C51", "title": "Cache expiry cannot fail a good task", "statement": "As long as the cleaner deletes nothing every result comes from a call of the function. In general it is false: if the cleaner thread has just decided that a function is idle when a task for it arrives, the task finds the function, the cleaner then deletes it, and the task is answered Failed although the function would have succeeded.", "quantifier": "existence of a thread interleaving", "why_tests_cant": "thread interleaving", "anchors": ["scaled/worker/agent/processor/cache_cleaner.py: CacheCleaner", "scaled/worker/agent/processor/processor.py: __on_received_task, __process_task"]}
{"id": "C52", "title": "A worker has one heartbeat in flight and dies only of silence", "statement": "The agent never sends a second heartbeat before the first is echoed, ignores unsolicited echoes (clock never 0), and quits with a timeout exactly when a timeout check finds that no expected echo arrived within the death timeout.", "quantifier": "every sequence of timer ticks and echoes, every clock", "why_tests_cant": "timing over all sequences", "anchors": ["scaled/worker/agent/heartbeat_manager.py", "scaled/worker/agent/timeout_manager.py"]}
{"id": "C53", "title": "A future is resolved at most once, with its own result", "statement": "Each future returned by submit or used by get is resolved at most once, and only by a result message carrying its own task or graph id (with the value or exception of that message) or by disconnection. A waiting future that was not cancelled is resolved by the first successful or failed result for its task (or graph), and that message has no other effect.", "quantifier": "every interleaving of the steps of any number of submits, gets and cancels with incoming messages", "why_tests_cant": "all message orders including duplicates", "anchors": ["scaled/client.py: Client.submit, __on_task_result, __on_task_echo, __on_exit"]}
{"id": "C54", "title": "The function is uploaded before the task is sent", "statement": "In every interleaving a Task message is sent only in answer to a positive function response for its function, is a submitted task, and is sent at most once for its submission and once for every FunctionNotExists echo; a positive response sends everything owed for its function; uploads carry a submitted function. With calls that do not overlap and a scheduler that answers each upload once, exactly one upload is unanswered as long as a task with that function is owed, and never more than one.", "quantifier": "every interleaving; for the last part every sequence of calls and responses", "why_tests_cant": "all sequences", "anchors": ["scaled/client.py: __on_buffer_task_send, __on_function_response, __on_task_echo"]}
{"id": "C55", "title": "A submitted task cannot be forgotten by the client", "statement": "False under threads: if a function response is handled between the check and the append of a concurrent submit, that task and every later task with the same function stay buffered for ever with no request outstanding.", "quantifier": "existence of an interleaving; every continuation of it", "why_tests_cant": "two-thread race", "anchors": ["scaled/client.py: __on_buffer_task_send, __on_function_response"]}
{"id": "C56", "title": "map returns one result per input, in order", "statement": "For a re-iterable input (list, tuple) map submits one task per item, in order, with the item's arguments and the defaults of the parameters beyond them, and returns the results of these calls in input order. For a one-shot iterator it silently returns an empty list.", "quantifier": "all inputs", "why_tests_cant": "all lengths and both kinds of iterables", "anchors": ["scaled/client.py: Client.map"]}
{"id": "C57", "title": "Keyword arguments reach the right parameters", "statement": "For every function whose parameters are all positional-or-keyword and every call Python accepts, the argument tuple sent to the worker binds each parameter to the same value as the direct call; a missing required argument raises TypeError in submit. With keyword-only parameters this is false: the worker's call sees the default whatever was given, and fails if there is none; keywords Python would reject or pass to **kwargs are silently dropped.", "quantifier": "all signatures, all calls", "why_tests_cant": "combinatorial space of signatures and calls", "anchors": ["scaled/client.py: __convert_kwargs_to_args"]}
{"id": "C58", "title": "get returns each key's own value", "statement": "When the requested keys are distinct, get maps every key to the value of its node. With a repeated key it may return another node's value under a key and omit keys.", "quantifier": "all graphs, all key lists", "why_tests_cant": "all key lists", "anchors": ["scaled/client.py: Client.get, __construct_graph"]}
{"id": "C59", "title": "get accepts exactly the well-formed graphs", "statement": "get rejects a graph iff a key is not a computed node, or an argument is not a node name, or the dependencies are cyclic; the graph task sent for an accepted graph denotes the same computation as the user's graph.", "quantifier": "all graphs", "why_tests_cant": "all graphs", "anchors": ["scaled/client.py: __split_data_and_graph, __check_graph, __construct_graph"]}
{"id": "C60", "title": "A failed graph fails all its futures", "statement": "False: when a graph fails only the first requested future receives the exception; the others stay pending for ever, as do all of them when the graph ends Canceled or NotFound.", "quantifier": "all numbers of keys >= 2", "why_tests_cant": "the suite waits on one key only", "anchors": ["scaled/client.py: __on_graph_task_result"]}
{"id": "C61", "title": "Disconnecting fails every pending future", "statement": "When the client disconnects and no waiting future was cancelled, every future that waits for a result gets a ScaledDisconnect error, one TaskCancel is sent per such task and one GraphTaskCancel per graph, and nothing else is resolved or cancelled; afterwards nothing is resolved any more. A future whose task ended Canceled, NotFound or WorkerDied does not wait and stays pending for ever (defect).", "quantifier": "every client state", "why_tests_cant": "all states", "anchors": ["scaled/client.py: __on_exit"]}
{"id": "C62", "title": "A value delivered to a future is the function's value", "statement": "In the system of any number of clients, the scheduler and any number of workers with their processors, whose network may delay, reorder, repeat or lose messages: any value a submit future is resolved with was returned by the submitted function, run on some worker with the submitted arguments; any value a future of get is resolved with was obtained by running the target's function on its arguments, with values obtained in the same way for the nodes it depends on; an exception was raised for that task or for a node of that graph. For functions that depend only on their arguments the value is therefore determined, whatever the interleaving, worker losses and rebalancing; in particular map over a sequence returns the function's values for the items, in order.", "quantifier": "every execution of the composed system in which ids identify tasks, graphs and functions", "why_tests_cant": "distributed interleavings", "anchors": ["scaled/client.py", "scaled/scheduler", "scaled/worker"]}
{"id": "C63", "title": "Numbers in the monitor are shown correctly", "statement": "Sizes show whole bytes below 1024, whole kilobytes (rounded down) below 1024^2, and above that the number of megabytes, gigabytes or terabytes rounded to the nearest tenth, in the largest unit not exceeding the size; a size of 1024^5 or more raises ValueError. Because of the rounding the number shown can be 1024.0. Integers with thousands separators have exactly the number's digits, with a separator exactly at every fourth place from the right. Times show tenths of a millisecond (rounded to the nearest) below one millisecond, whole milliseconds below one second, whole seconds below 1000 seconds (both rounded down), and raise ValueError from 1000 seconds on. Seconds are shown as they are up to 60 and as 60+ beyond.", "quantifier": "all non-negative integers", "why_tests_cant": "boundaries and floating point rounding over all numbers", "anchors": ["scaled/utility/formatter.py"]}
{"id": "C64", "title": "The monitor shows every report completely", "statement": "Merging rectangular tables gives the rectangular table whose row i is both tables' rows i with the padding between, blanks standing in for missing rows; concatenating gives both tables' rows padded to the same width with blank rows between; truncation keeps short strings and cuts long ones to the limit plus one mark. A rectangular table is printed completely with right-justified columns; any other raises IndexError. For every report the scheduler can send (sizes below 1024^5, lags below 1000 s, the same fields for every worker) showing it raises nothing, each counter, client, function and worker of the report stands in the tables, and no two texts on the screen overlap or touch.", "quantifier": "all tables, strings and reports, any number of workers, clients and functions", "why_tests_cant": "all shapes of reports", "anchors": ["scaled/entry_points/top.py: __merge_tables, __concat_tables, __truncate, __print_table, show_status"]}
{"id": "C65", "title": "Nothing but silence ends a worker among well-behaved peers", "statement": "If no task the worker still has arrives again, balance counts are not negative, cancels and functions arrive only while the worker is busy or its processor is starting, and only known message types arrive, then the agent never ends except by the death timeout.", "quantifier": "every interleaving of well-behaved inputs", "why_tests_cant": "absence of crashes in all interleavings", "anchors": ["scaled/worker/worker.py", "scaled/worker/agent/task_manager.py", "scaled/worker/agent/processor_manager.py"]}
{"id": "C66", "title": "Worker heartbeats tell the truth", "statement": "Each heartbeat says whether the processor is up and has a task at that moment, carries the measurements just made, and reports as queued the number of waiting tasks, less at most the one already taken for the processor.", "quantifier": "every interleaving (distinct task ids)", "why_tests_cant": "needs the history", "anchors": ["scaled/worker/agent/heartbeat_manager.py: routine"]}
{"id": "C67", "title": "A task that ends its processor is answered", "statement": "False: when the user's code ends the process, raises an exception that cannot be pickled, or its function cannot be loaded, the processor is silent for ever; the agent does not notice, never hands over another task and never answers this one, until the task is cancelled.", "quantifier": "every run of the agent in which no result for the task and no cancel of it arrives", "why_tests_cant": "absence of an answer in all continuations", "anchors": ["scaled/worker/agent/processor/processor.py: __process_task", "scaled/worker/agent/processor_manager.py"]}
{"id": "C68", "title": "A function sent late does no harm", "statement": "False: a function that reaches the processor when no task waits for it ends the processor, and the agent forwards one: when a task that asked for its function is cancelled and another task with the same function is started and asks again, both replies are forwarded.", "quantifier": "every processor history for the first part; existence for the second", "why_tests_cant": "message race", "anchors": ["scaled/worker/agent/processor_manager.py: on_function_response", "scaled/worker/agent/processor/processor.py: __on_receive_function_response"]}
{"id": "C69", "title": "Cancelling a future is harmless", "statement": "False: when a future was cancelled before the scheduler accepted its task, the result of that task, or disconnecting, raises InvalidStateError in the client's thread; no other future is resolved from then on.", "quantifier": "every run in which such a future waits", "why_tests_cant": "needs a cancel between submission and acceptance", "anchors": ["scaled/client.py: __on_task_result, __on_task_echo, __on_exit"]}
{"id": "C70", "title": "A refused task is reported to its caller", "statement": "False: a NoWorker echo for a submitted task ends the client's thread with NotImplementedError, and no future of the client is resolved from then on.", "quantifier": "every run in which such an echo arrives", "why_tests_cant": "absence of effects in all continuations", "anchors": ["scaled/client.py: __on_task_echo"]}
{"id": "C71", "title": "The reply to a task can arrive at any time", "statement": "False: submit registers the future after the task can have been sent, and an echo handled in between ends the client's thread with KeyError.", "quantifier": "every run in which the echo comes during submit", "why_tests_cant": "two-thread race", "anchors": ["scaled/client.py: Client.submit, __on_task_echo"]}
{"id": "C72", "title": "Workers run only what users asked for", "statement": "Every call of user code on any worker is a call of a function that some user provided, for a task that some user submitted or a node of a graph that some user asked for, with the arguments given for it, references to other nodes replaced by values computed for those nodes.", "quantifier": "every execution of the composed system in which ids identify tasks, graphs and functions", "why_tests_cant": "distributed interleavings, retries and cache expiry", "anchors": ["scaled/client.py", "scaled/scheduler", "scaled/worker"]}
{"id": "C73", "title": "Well-behaved graphs never end the scheduler", "statement": "Without a waiting limit, the scheduler survives all well-behaved traffic of tasks and graphs: graphs without cycles or repeated references that bring their functions, every id used once (a refused task may be submitted again), a failure or a cancel reported or sent while no other node of that graph waits in the scheduler. Workers may come, go, lag and answer in any order.", "quantifier": "every configuration without waiting limit, every history in which each arrival is well-behaved given the history before it", "why_tests_cant": "all schedules of arrivals and loops, all graph shapes", "anchors": ["scaled/scheduler/graph_manager.py", "scaled/scheduler/task_manager.py", "scaled/scheduler/worker_manager.py"]}
{"id": "C74", "title": "A graph in progress is always being worked on", "statement": "Under the same traffic, a submitted graph is in the graph queue, in progress, answered or cancelled. While it is in progress some node of it waits for a worker or is with a registered worker, and each node is done, or on its way with all its inputs there, or lacks an input. So when the results of all nodes are in, the answer has been sent.", "quantifier": "every configuration without waiting limit, every well-behaved history, every graph in it", "why_tests_cant": "a stall can depend on the order of all results of a graph of any size", "anchors": ["scaled/scheduler/graph_manager.py: __check_one_graph, on_task_done"]}
{"id": "C75", "title": "There are no dead ends", "statement": "After any well-behaved traffic of tasks and graphs, if workers have room for at least one task, then with nothing but rounds of the scheduler's own loops, workers reporting success of tasks they have, and one worker joining whenever there is none, every graph gets answered or was cancelled, every accepted task gets answered, and no worker has a task left. A scheduler with no graph to take up, no task to place and no result to wait for owes nothing to anybody.", "quantifier": "every configuration without waiting limit and with room at workers, every well-behaved history, every result value of every task", "why_tests_cant": "existence of a completion from every reachable state; no bound on the number of open graphs and tasks", "anchors": ["scaled/scheduler/graph_manager.py", "scaled/scheduler/task_manager.py", "scaled/scheduler/worker_manager.py", "scaled/scheduler/allocators/queued.py"]}
{"id": "C76", "title": "Command-line options reach the part they name", "statement": "Every option of the scheduler command and of the cluster command, in any order and number of repetitions, under each of its names and written as two words or as name=value, sets exactly the documented setting of the scheduler or of each worker; the last one wins; settings not named have their defaults; a wrong line is refused before anything starts: a value that is not a number or not an event loop, an option without value, no address, several addresses, a bad address.", "quantifier": "all lists of option-value pairs with one address, all values, machines with any number of cores", "why_tests_cant": "lists of arguments of any length and order, all numbers", "anchors": ["scaled/entry_points/scheduler.py", "scaled/entry_points/cluster.py", "scaled/scheduler/main.py: Scheduler.__init__, scheduler_main", "scaled/cluster/cluster.py"]}
{"id": "C77", "title": "Which settings of the scheduler make a difference", "statement": "False: the number of seconds for load balancing sets how often tasks are rebalanced. For any two positive numbers the scheduler does the same in every execution (it balances in each round of a loop of one second). Any two negative limits on waiting tasks mean the same.", "quantifier": "all settings, all executions", "why_tests_cant": "equality of all executions under two configurations", "anchors": ["scaled/scheduler/main.py: get_loops", "scaled/scheduler/worker_manager.py: __balance_request", "scaled/scheduler/task_manager.py"]}
{"id": "C78", "title": "A combo is consistent", "statement": "The scheduler and all workers made by a combo use one address and the combo's settings. False: the event loop is used by the scheduler too (it always uses the built-in one). False: a combo that is made can work (one with an address other than TCP has a scheduler that cannot start, one with an unknown event loop has workers none of which can start).", "quantifier": "all combos", "why_tests_cant": "all settings", "anchors": ["scaled/cluster/combo.py", "scaled/cluster/scheduler.py", "scaled/cluster/cluster.py"]}
{"id": "C79", "title": "Which schedulers start, and where they publish", "statement": "A scheduler starts exactly when its address is a TCP address and its event loop is available. Schedulers listening at different addresses publish their state at different places, so that a monitor sees the one it asks for.", "quantifier": "all settings, all pairs of addresses", "why_tests_cant": "all hosts and ports", "anchors": ["scaled/scheduler/main.py: Scheduler.__init__", "scaled/utility/event_loop.py", "scaled/utility/zmq_config.py"]}
{"id": "C80", "title": "Life of a cluster", "statement": "A cluster asked for n workers starts n processes and never more. A signal that comes while all of them run is passed on to all, and when they have ended the cluster ends. False: a signal always ends the cluster: one that comes before the workers are made is lost, one while they are started raises, one after the first worker was joined reaches nobody, and SIGTERM to a cluster of one worker raises.", "quantifier": "every number of workers, every interleaving of the cluster's steps, signals and ends of workers", "why_tests_cant": "signals at any point", "anchors": ["scaled/cluster/cluster.py", "scaled/worker/worker.py: __register_signal"]}
{"id": "C81", "title": "Nobody crashes when nothing goes wrong", "statement": "Let users only submit tasks (with new ids, text names and data that can be deserialized), the network deliver every message once and in order, no user code kill its process, nobody be silent for longer than the timeouts, no message reach a client during a call of submit, and the scheduler dispatch between accepting a task and handling the next message. Then, without a limit on waiting tasks, neither the scheduler nor any client, agent or processor ever ends or fails, in any interleaving of any number of clients and workers that join at any time.", "quantifier": "every such execution: all interleavings, any number of clients, workers and tasks, all times of all loops, all results", "why_tests_cant": "interleavings of unboundedly many parts", "anchors": ["scaled/scheduler/", "scaled/client.py", "scaled/worker/"]}
{"id": "C82", "title": "No dead ends in the whole system", "statement": "Under the conditions of C81, with a worker present and room at workers for at least one task: from every state the system can go on, without new clients, workers or submissions and still within the conditions, until every future ever returned by submit has its value. This holds whatever each call of user code returns or raises, and wherever the tasks are: in a call of submit, in a client's buffer, refused for a missing function, on any socket, queued, running, being moved between workers.", "quantifier": "every configuration without waiting limit, every orderly execution, every outcome of every call of user code", "why_tests_cant": "existence of a completion from every reachable state of unboundedly many parts", "anchors": ["scaled/scheduler/", "scaled/client.py", "scaled/worker/"]}
{"id": "C83", "title": "A task is run at most once", "statement": "Under the conditions of C81 the user's function is called at most once for every submitted task, over all workers and all times. False without the condition on silence: a worker that sends no heartbeat for longer than the timeout while it works has its task sent to another worker, and both call the function, although no message is lost and nobody crashes; the client's future gets one value.", "quantifier": "every configuration without waiting limit, every orderly execution, every task", "why_tests_cant": "interleavings of unboundedly many parts; moves of tasks between workers at any time", "anchors": ["scaled/scheduler/task_manager.py", "scaled/scheduler/worker_manager.py", "scaled/worker/"]}
{"id": "C84", "title": "How long a worker keeps a function", "statement": "A processor that received a function asks for it again only if its cache cleaner scanned at a moment when every message about the function (tasks that use it, the function itself) was older than the retention time, and deleted something afterwards, or if deletion was requested. Conversely, after a complete pass of the cleaner at a moment when the last use of a function is older than the retention time, the next task that needs it makes the processor ask for it.", "quantifier": "all histories of a processor with monotone clock, all interleavings of its two threads, all retention times", "why_tests_cant": "real time and thread interleavings", "anchors": ["scaled/worker/agent/processor/cache_cleaner.py", "scaled/worker/agent/processor/processor.py"]}
{"id": "C85", "title": "How long the timeouts must be", "statement": "Let heartbeats and their answers take at most d seconds, and let every worker run its heartbeat loop at least every h seconds, on one clock. If the scheduler's worker timeout is at least 2d+h and every worker waits longer than 2d+h for the scheduler, then no worker is ever taken for dead and no worker gives up the scheduler, however long tasks run; so C81 to C83 hold without a condition on silence. Neither bound can be one second shorter.", "quantifier": "all delays, intervals, timeouts, all executions in which users and network behave as in C81, all interleavings of any number of clients and workers", "why_tests_cant": "real time: the worst case needs all delays at their maximum and checks at the worst moments", "anchors": ["scaled/worker/agent/heartbeat_manager.py", "scaled/worker/agent/timeout_manager.py", "scaled/scheduler/worker_manager.py"]}
{"id": "C86", "title": "Nobody crashes when nothing goes wrong, with graphs", "statement": "As C81, with users that also call get: they submit graphs that can be computed, with new ids, no message reaches a client between the sending of a graph and the registering of its futures, and no node of a graph fails. Then neither the scheduler nor any client, agent or processor ever ends or fails, in any interleaving of tasks and graphs of any number of clients and workers. False without the condition on nodes: user code that raises in a node of a graph ends the scheduler when another node of the graph waits for a worker.", "quantifier": "every such execution: all interleavings, any number of clients, workers, tasks and graphs, all shapes of graphs, all times of all loops, all results", "why_tests_cant": "interleavings of unboundedly many parts and graphs of any shape", "anchors": ["scaled/scheduler/graph_manager.py", "scaled/scheduler/", "scaled/client.py", "scaled/worker/"]}
{"id": "C87", "title": "No dead ends in the whole system, with graphs", "statement": "Under the conditions of C86, with a worker present and room at workers for at least one task: from every state in which no processor has failed a node of a graph, or is about to because the node's function is gone from it (C51), the system can go on, without new clients, workers, submissions or calls of get and still within the conditions, until every future ever returned by submit has its value and every target of every graph ever submitted has a result. This holds wherever the tasks and graphs are, whatever the shapes of the graphs, and whatever each call of user code returns or raises, except that those for nodes of graphs return.", "quantifier": "every configuration without waiting limit, every such execution, every outcome of every call of user code (returning for nodes)", "why_tests_cant": "existence of a completion from every reachable state of unboundedly many parts and graphs of any shape", "anchors": ["scaled/scheduler/graph_manager.py", "scaled/scheduler/", "scaled/client.py", "scaled/worker/"]}
{"id": "C88", "title": "A task or a node of a graph is run at most once", "statement": "Under the conditions of C86 (users submit tasks and graphs, nothing goes wrong) the user's function is called at most once for every submitted task and at most once for every node of every submitted graph, over all workers and all times, however tasks and nodes are moved between workers.", "quantifier": "every configuration without waiting limit, every such execution, every task and node", "why_tests_cant": "interleavings of unboundedly many parts and graphs of any shape; moves of tasks between workers at any time", "anchors": ["scaled/scheduler/graph_manager.py", "scaled/scheduler/task_manager.py", "scaled/scheduler/worker_manager.py", "scaled/worker/"]}
{"id": "C89", "title": "How long the timeouts must be, with graphs", "statement": "Let heartbeats and their answers take at most d seconds, and let every worker run its heartbeat loop at least every h seconds, on one clock, while users submit tasks and graphs and nothing else goes wrong (C86). If the scheduler's worker timeout is at least 2d+h and every worker waits longer than 2d+h for the scheduler, then no worker is ever taken for dead and no worker gives up the scheduler, however long tasks and nodes of graphs run and whatever the scheduler is doing with graphs; so everything said in C86 to C88 holds.", "quantifier": "all d, h and timeouts with these inequalities, every configuration without waiting limit, every such execution", "why_tests_cant": "all interleavings of loops, messages and graphs with all real timings", "anchors": ["scaled/scheduler/worker_manager.py", "scaled/worker/agent/heartbeat_manager.py", "scaled/worker/agent/timeout_manager.py", "scaled/scheduler/graph_manager.py"]}
{"id": "C90", "title": "What waiting for a future does", "statement": "fut.result() returns the value, or raises the exception, that the future's own result message carried; it raises the disconnect error when the client disconnected; it raises CancelledError when the user cancelled the future while it was still pending, whatever the scheduler sends later, and only then; otherwise it blocks. Once it has an outcome the outcome never changes.", "quantifier": "every history of the client and every continuation of it, including late results, repeated cancels, disconnects and a dead connector thread", "why_tests_cant": "late messages and cancels can come in any order around the moment a future gets its outcome", "anchors": ["scaled/client.py: submit, __on_task_echo, __on_task_result, __on_exit"]}
{"id": "C91", "title": "How soon silence is noticed", "statement": "With loops that run every second and turns that are late by at most some slack: a worker the scheduler still counts, or that still holds a task, was heard from within the worker timeout plus one second plus the slack; a worker that has not quit was answered by the scheduler within its death timeout plus one second plus the slack; an unused function that was in the scheduler's table at the last turn had been added or looked for within the retention time. Turns of a loop are never closer than the interval.", "quantifier": "every execution of the scheduler and of a worker, every sequence of turn durations and oversleeps within the slack, every time at which one looks", "why_tests_cant": "needs every alignment of last message, loop turn and moment of observation", "anchors": ["scaled/utility/event_loop.py: create_async_loop_routine", "scaled/scheduler/main.py: get_loops", "scaled/scheduler/worker_manager.py: routine", "scaled/scheduler/function_manager.py: routine", "scaled/worker/worker.py: __get_loops", "scaled/worker/agent/timeout_manager.py: routine"]}
{"id": "C92", "title": "The message counters tell the truth", "statement": "At every moment at which no exception has left the socket, the statistics a scheduler's binder reports - and the same numbers at a connector - are exact: under the name of a message type stands the number of messages of that type handed to the application, respectively put on the wire, and a type without messages has no entry. Dropped frames are not counted, names of types are distinct, and counting never changes what is delivered. After an exception binder and connector differ: the binder has counted the message that could not be decoded, the connector has not, and both have counted a message that could not be encoded as sent.", "quantifier": "every sequence of arriving frames (any byte strings) and of sent messages", "why_tests_cant": "unbounded histories of arbitrary frames and messages", "anchors": ["scaled/io/async_binder.py: routine, send, statistics, __count_one", "scaled/io/async_connector.py: routine, send, statistics, __count_one", "scaled/protocol/python/message.py: MessageType"]}
{"id": "C93", "title": "Memory housekeeping of a processor", "statement": "Two garbage collections by a processor's cleaner are at least the configured interval apart, whatever the clock does; while the cleaner makes its turns every second, late by at most some slack, the last collection (or the start) is always less than the interval plus one second plus the slack ago; memory is given back to the operating system only right after a collection, and then exactly when the process is at or above the configured threshold.", "quantifier": "every sequence of turns, clock values and memory sizes, every configured interval and threshold", "why_tests_cant": "every alignment of turns and intervals over unbounded time", "anchors": ["scaled/worker/agent/processor/cache_cleaner.py: run, __clean_memory"]}
{"id": "C94", "title": "The system survives crashes of workers", "statement": "Workers may die at any moment: before they registered, while idle, with tasks queued, in the middle of a call, with results on their way. Nobody else ends because of it: the scheduler, every client's connector and every other worker go on. And no task is lost: as long as one worker is alive, the execution can always go on, without new parts and new work, until every task ever submitted has its value, whatever the calls of user code return or raise. The scheduler may have given up some of the dead workers already and still believe in others.", "quantifier": "every orderly execution (C81) with any number of deaths of workers at any moments, every configuration without waiting limit, with room in the workers' queues and a timeout that is not negative, every choice of what calls return", "why_tests_cant": "all crash points of any number of workers in all interleavings, including messages that the dead have sent and tasks they hold", "anchors": ["scaled/scheduler/worker_manager.py: routine, __clean_workers, on_heartbeat", "scaled/scheduler/task_manager.py", "scaled/scheduler/allocators/queued.py: remove_worker", "scaled/worker/"]}
{"id": "C95", "title": "The system survives crashes of workers, with graphs", "statement": "Users submit graphs as well as tasks, and workers die at any moment, also while they hold or run nodes of graphs. As long as no node fails, nobody else ends because of it: the scheduler, every client's connector and every other worker go on. And nothing is lost: as long as one worker is alive and no node has failed or lost its function at a live worker, the execution can always go on, without new parts and new work, until every task and every target of every graph has its value, whatever the calls of user code return or raise, as long as those for nodes return.", "quantifier": "every orderly execution with graphs (C86) with any number of deaths of workers at any moments, every configuration without waiting limit (and, to finish, with room in the workers' queues and a timeout that is not negative), every choice of what calls return", "why_tests_cant": "all crash points of any number of workers in all interleavings with the progress of graphs", "anchors": ["scaled/scheduler/worker_manager.py: routine, __clean_workers, on_heartbeat", "scaled/scheduler/graph_manager.py", "scaled/scheduler/task_manager.py", "scaled/scheduler/allocators/queued.py: remove_worker", "scaled/worker/"]}
{"id": "C96", "title": "User code is called again only because of a dead worker", "statement": "Workers die at any moment, and users submit tasks and graphs. No worker calls the user's code twice for one task or node. If two workers have called it, one of them had died and the scheduler had given it up; so in the whole system the code is called at most once more for a task than there were deaths. And once a result from the worker that has the task has reached the scheduler, nobody calls the code for this task again, whoever dies later; in particular not once the future of the task has its value or exception, or that of a target of a graph its value.", "quantifier": "every orderly execution with graphs (C86) with any number of deaths of workers at any moments, every configuration without waiting limit, every task and every worker", "why_tests_cant": "all crash points of any number of workers in all interleavings, with results on their way from workers that are already dead", "anchors": ["scaled/scheduler/worker_manager.py: routine, __clean_workers, on_heartbeat", "scaled/scheduler/task_manager.py: on_task_done, on_task_reroute", "scaled/scheduler/allocators/queued.py: remove_worker", "scaled/worker/"]}
{"id": "C97", "title": "The monitor shows every report, sorted as chosen", "statement": "While the scheduler publishes status reports and states of tasks, the monitor program goes on and draws one screen for each report, in their order, and nothing else. The workers stand below each other by the column whose shortcut was pressed last (cpu at the start): higher entries first - numbers by their values, not by the text shown - and workers with equal entries in the order of the report; other keys change nothing. It ends with a TimeoutError when nothing arrives in time, and without a message on the screen when a message of unknown type arrives; a single frame is passed over.", "quantifier": "every sequence of published messages, every key read at each report, every report whose entries are of the published kinds, every order of the fields in encoded messages", "why_tests_cant": "unbounded histories of reports and keys, arbitrary numbers of workers with equal or nearly equal entries", "anchors": ["scaled/entry_points/top.py: poke, subscribe_status, show_status, __generate_worker_manager_table, SORT_BY_OPTIONS", "scaled/scheduler/status_reporter.py"]}
{"id": "C98", "title": "The screen tells the truth about the scheduler", "statement": "Whenever a scheduler among well-behaved peers reports its status, the monitor can show the report, and what it shows is true: the numbers of waiting and of running tasks, of tasks that succeeded, failed, were cancelled or not found, and of messages received and sent by type; behind each client the number of its tasks without an answer; and exactly one row for each registered worker, with what its last heartbeat said, how long ago that was, how many tasks it has and how many places are free. This needs measurements that the monitor can format: with a worker that reports a delay of 1000 s or more it ends with an exception.", "quantifier": "every history of well-behaved traffic without graphs and without waiting limit, every moment of the report, every order of the entries in it, every column to sort by", "why_tests_cant": "unbounded histories; every state of the scheduler at the moment of the report", "anchors": ["scaled/scheduler/status_reporter.py: routine", "scaled/scheduler/worker_manager.py: statistics", "scaled/scheduler/task_manager.py: statistics", "scaled/scheduler/client_manager.py: statistics", "scaled/io/async_binder.py: statistics", "scaled/entry_points/top.py: show_status"]}
{"id": "C99", "title": "The published state of a task is where it is", "statement": "Whoever subscribes to a scheduler's task states sees the truth: among well-behaved peers, at every moment, the last state published of a task is Inactive if it was accepted and waits for a worker (also after a worker that had it died, disconnected or gave it back), Running or Canceling if a worker has it, and the status of the result if one was sent to the client; nothing is published about tasks that were never accepted. Each published state carries the name under which the task's function came, and any state but Inactive and Running repeats a worker's result or follows a client's wish to cancel the task.", "quantifier": "every history of well-behaved traffic without graphs and without waiting limit, every task, every moment between two turns of the scheduler's loops", "why_tests_cant": "all interleavings of submissions, cancels, results, deaths and balancing over unbounded histories", "anchors": ["scaled/scheduler/task_manager.py: __send_monitor, on_task_new, on_task_reroute, on_task_cancel, on_task_done, routine"]}
{"id": "C100", "title": "Logs go where they were asked to go, and durations are right", "statement": "After setup_logger(paths, level), a record of at least this level and of DEBUG is written to every destination asked for (the terminal for '-' and /dev/stdout, files otherwise) and to no other, once to each, and a lesser record nowhere; a path tcp://... raises NotImplementedError, and all other calls with a known level and files that can be opened succeed. A file named 'console' cannot be combined with the terminal: the later of the two replaces the earlier (refuted). A block under ScopedLogger of less than 104 days logs its exact duration in microseconds, and ends as it would without.", "quantifier": "every list of paths, level, record, expansion of paths, pair of clock readings and outcome of the block", "why_tests_cant": "all lists of paths with repetitions; every duration in nanoseconds, through the roundings of three float divisions", "anchors": ["scaled/utility/logging/utility.py: setup_logger, __detect_log_types, __logging_config", "scaled/utility/logging/scoped_logger.py: ScopedLogger, TimedLogger", "scaled/utility/logging/decorators.py: log_function"]}
{"id": "C101", "title": "A monitor listens where the scheduler publishes", "statement": "The monitor program connects to exactly the address given on its command line and waits for messages as many seconds as --timeout says (the last value given counts; 5 seconds without one). Given ipc:///tmp/HOST_PORT_monitor, it connects to where the scheduler started at tcp://HOST:PORT publishes, whatever the other options of both. A text that is no address raises ValueError; no text, several texts or a timeout that is no number print the usage.", "quantifier": "every command line of known options with values, every address, every scheduler that starts", "why_tests_cant": "all orders and repetitions of options, all texts, all hosts and ports", "anchors": ["scaled/entry_points/top.py: get_args, poke, subscribe_status", "scaled/scheduler/main.py: Scheduler", "scaled/utility/zmq_config.py: ZMQConfig"]}
