{
 "claims": [
  {
   "property": "C01",
   "status": "proved",
   "theorems": [
    "C01_indexed_queue_is_fifo"
   ],
   "note": "Refinement for every call sequence, hash assumed injective as the property says."
  },
  {
   "property": "C02",
   "status": "proved",
   "theorems": [
    "C02_hash_collision_refuted",
    "C02_indexed_queue_by_hash"
   ],
   "note": "REFUTED contract: shown for every non-injective hash; C02_indexed_queue_by_hash is what holds for all hashes."
  },
  {
   "property": "C03",
   "status": "proved",
   "theorems": [
    "C03_one_to_many_is_function"
   ],
   "note": ""
  },
  {
   "property": "C04",
   "status": "proved",
   "theorems": [
    "C04_key_value_set_is_relation"
   ],
   "note": ""
  },
  {
   "property": "C05",
   "status": "proved",
   "theorems": [
    "C05_priority_queue_yields_least"
   ],
   "note": "Every call sequence within the contract (distinct data, non-negative priorities, no remove/decrease of peeked data)."
  },
  {
   "property": "C06",
   "status": "proved",
   "theorems": [
    "C06_peek_is_read_only_refuted",
    "C06_peek_loses_decrease_refuted",
    "C06_peek_then_get_partial"
   ],
   "note": "The property states a defect: max_priority is not read-only (async_priority_queue.py:48-51 pushes a new list object and leaves the locator on the old one). C06_peek_then_get_partial is the part of the read-only expectation that holds: peeked data must be taken before it is removed or decreased."
  },
  {
   "property": "C07",
   "status": "proved",
   "theorems": [
    "C07_worker_capacity"
   ],
   "note": ""
  },
  {
   "property": "C08",
   "status": "proved",
   "theorems": [
    "C08_assignment_views_agree",
    "C08_one_worker_per_task"
   ],
   "note": ""
  },
  {
   "property": "C09",
   "status": "proved",
   "theorems": [
    "C09_least_loaded",
    "C09_least_loaded_any_history_refuted"
   ],
   "note": "Proved for every disciplined history (each availability check followed by an assignment before anything else changes), which is the restriction in the property text; REFUTED without it."
  },
  {
   "property": "C10",
   "status": "proved",
   "theorems": [
    "C10_remove_worker_returns_its_tasks"
   ],
   "note": ""
  },
  {
   "property": "C11",
   "status": "proved",
   "theorems": [
    "C11_balance_advice",
    "C11_advice_is_moderate",
    "C11_float_mean"
   ],
   "note": "Mean as exact rational; Python uses a float quotient. The mean is exact in the scheduler model; C11_float_mean shows that the floats of the code give the same advice while tasks times workers is below 2^52."
  },
  {
   "property": "C12",
   "status": "proved",
   "theorems": [
    "C12_available_is_sound",
    "C12_available_is_exact",
    "C12_available_any_history_refuted"
   ],
   "note": "Soundness of 'available' in every history; exactness in every disciplined history; exactness in general REFUTED."
  },
  {
   "property": "C13",
   "status": "proved",
   "theorems": [
    "C13_statistics"
   ],
   "note": ""
  },
  {
   "property": "C14",
   "status": "proved",
   "theorems": [
    "C14_messages_round_trip"
   ],
   "note": "All twenty classes, any sizes; floats as bit patterns, cpu as scaled integers."
  },
  {
   "property": "C15",
   "status": "proved",
   "theorems": [
    "C15_frames_identify_message"
   ],
   "note": ""
  },
  {
   "property": "C16",
   "status": "proved",
   "theorems": [
    "C16_sent_is_delivered"
   ],
   "note": ""
  },
  {
   "property": "C17",
   "status": "proved",
   "theorems": [
    "C17_unencodable_messages"
   ],
   "note": ""
  },
  {
   "property": "C18",
   "status": "proved",
   "theorems": [
    "C18_malformed_message_kills_receiver_refuted",
    "C18_malformed_message_partial"
   ],
   "note": "The property states a defect. C18_malformed_message_partial characterises exactly what is ignored and what a delivered message implies, for all frame lists."
  },
  {
   "property": "C19",
   "status": "proved",
   "theorems": [
    "C19_address_round_trip",
    "C19_address_accepted_exactly",
    "C19_address_rejected"
   ],
   "note": "Python text as ASCII bytes. C19_address_accepted_exactly gives the exact set of accepted strings, numbers as in Spec/NumberSpec.v (blanks, sign, underscores)."
  },
  {
   "property": "C20",
   "status": "proved",
   "theorems": [
    "C20_at_most_one_result"
   ],
   "note": ""
  },
  {
   "property": "C21",
   "status": "proved",
   "theorems": [
    "C21_result_to_submitter"
   ],
   "note": ""
  },
  {
   "property": "C22",
   "status": "proved",
   "theorems": [
    "C22_results_relayed_unmodified"
   ],
   "note": "The empty Canceled result is tied to the cancel message or the graph being handled."
  },
  {
   "property": "C23",
   "status": "proved",
   "theorems": [
    "C23_no_task_lost"
   ],
   "note": "Any history in which the scheduler has not terminated; graph nodes excluded (C40-C45)."
  },
  {
   "property": "C24",
   "status": "proved",
   "theorems": [
    "C24_dispatch_to_live_worker"
   ],
   "note": ""
  },
  {
   "property": "C25",
   "status": "proved",
   "theorems": [
    "C25_dispatch_count",
    "C25_not_on_two_workers"
   ],
   "note": ""
  },
  {
   "property": "C26",
   "status": "proved",
   "theorems": [
    "C26_function_available"
   ],
   "note": ""
  },
  {
   "property": "C27",
   "status": "proved",
   "theorems": [
    "C27_function_content_stable",
    "C27_function_content_origin",
    "C27_add_answer",
    "C27_check_answer",
    "C27_request_answer"
   ],
   "note": "C27_add/check/request_answer hold in every state, reachable or not."
  },
  {
   "property": "C28",
   "status": "proved",
   "theorems": [
    "C28_expiry",
    "C28_users_are_unanswered"
   ],
   "note": "'Uses' is the function manager's own record in the general theorem; C28_users_are_unanswered identifies it with unanswered submissions in well-behaved traffic."
  },
  {
   "property": "C29",
   "status": "proved",
   "theorems": [
    "C29_delete_refuted"
   ],
   "note": "The property states a defect (expectation REFUTED)."
  },
  {
   "property": "C30",
   "status": "proved",
   "theorems": [
    "C30_submission_echo",
    "C30_no_worker_only_when_full_refuted"
   ],
   "note": "All reachable states; the exact converse for NoWorker is REFUTED (stale allocator loads after a refusal, see C06)."
  },
  {
   "property": "C31",
   "status": "proved",
   "theorems": [
    "C31_cancel",
    "C31_cancelled_not_dispatched"
   ],
   "note": "Never-dispatched part in all histories, single-round part in well-behaved traffic; outside it see C32 and C44."
  },
  {
   "property": "C32",
   "status": "proved",
   "theorems": [
    "C32_cancel_lost_refuted"
   ],
   "note": "The property states a defect (expectation REFUTED by a well-behaved history)."
  },
  {
   "property": "C33",
   "status": "proved",
   "theorems": [
    "C33_timeout"
   ],
   "note": "For rounds that do not terminate the scheduler (a task id queued twice could; excluded in well-behaved traffic by C37)."
  },
  {
   "property": "C34",
   "status": "proved",
   "theorems": [
    "C34_balance_requests"
   ],
   "note": ""
  },
  {
   "property": "C35",
   "status": "proved",
   "theorems": [
    "C35_status_report",
    "C35_report_always_refuted",
    "C35_text"
   ],
   "note": "In well-behaved traffic, as the property says; in general REFUTED."
  },
  {
   "property": "C36",
   "status": "proved",
   "theorems": [
    "C36_dispatch",
    "C36_submission_order_refuted",
    "C36_dispatch_graphs"
   ],
   "note": "Positive part in well-behaved traffic, with graphs in C36_dispatch_graphs; submission order REFUTED."
  },
  {
   "property": "C37",
   "status": "proved",
   "theorems": [
    "C37_survives_well_behaved_traffic"
   ],
   "note": "'Well-behaved' is the definition [polite] of Spec/SchedulerSpec.v."
  },
  {
   "property": "C38",
   "status": "proved",
   "theorems": [
    "C38_survives_any_traffic_refuted"
   ],
   "note": "The property states a defect (two counterexample histories)."
  },
  {
   "property": "C39",
   "status": "proved",
   "theorems": [
    "C39_disconnect"
   ],
   "note": ""
  },
  {
   "property": "C40",
   "status": "proved",
   "theorems": [
    "C40_node_after_dependencies",
    "C40_node_started_once"
   ],
   "note": "Any history, any graphs (no acyclicity needed)."
  },
  {
   "property": "C41",
   "status": "proved",
   "theorems": [
    "C41_graph_result_is_value",
    "C41_value_unique"
   ],
   "note": "apply is an arbitrary function of function id and argument payloads; workers' honesty is a hypothesis on the history, discharged for the worker model in C62."
  },
  {
   "property": "C42",
   "status": "proved",
   "theorems": [
    "C42_answered_at_most_once",
    "C42_success_means_all_done",
    "C42_failure_names_a_node"
   ],
   "note": "All three parts over arbitrary histories."
  },
  {
   "property": "C43",
   "status": "proved",
   "theorems": [
    "C43_repeated_input_never_runs",
    "C43_repeated_input_refuted"
   ],
   "note": "The property states a defect (REFUTED expectation); graph_manager.py:252-266 with key_value_set.py remove_value."
  },
  {
   "property": "C44",
   "status": "proved",
   "theorems": [
    "C44_cleanup_refuted",
    "C44_cancel_finished_refuted"
   ],
   "note": "The property states a defect (REFUTED expectation), by concrete histories."
  },
  {
   "property": "C45",
   "status": "proved",
   "theorems": [
    "C45_hanging_graph_refuted"
   ],
   "note": "The property states a defect (REFUTED expectation): concrete prefix, all continuations by an invariant."
  },
  {
   "property": "C46",
   "status": "proved",
   "theorems": [
    "C46_one_at_a_time",
    "C46_in_order",
    "C46_own_results",
    "C46_progress"
   ],
   "note": "Any interleaving; order and progress assume that no task arrives whose id the worker still has (fresh)."
  },
  {
   "property": "C47",
   "status": "proved",
   "theorems": [
    "C47_conservation",
    "C47_one_place",
    "C47_at_most_once"
   ],
   "note": "Counting law for all ids; places read from the agent state and, with distinct ids, equal to the history's waiting list."
  },
  {
   "property": "C48",
   "status": "proved",
   "theorems": [
    "C48_balance",
    "C48_not_run"
   ],
   "note": "n >= 0; a negative count raises (did_balance_crash) and is excluded by welcome."
  },
  {
   "property": "C49",
   "status": "proved",
   "theorems": [
    "C49_cancel_answer",
    "C49_each_cancel_answered",
    "C49_no_other_result",
    "C49_limbo_refuted",
    "C49_idle_refuted"
   ],
   "note": "Full case analysis of the answer; the two exceptions of the text are concrete runs (REFUTED parts)."
  },
  {
   "property": "C50",
   "status": "proved",
   "theorems": [
    "C50_results",
    "C50_calls",
    "C50_exactly_one",
    "C50_requests",
    "C50_answer_with_function",
    "C50_answer_now"
   ],
   "note": "User code is an arbitrary outcome per call, recorded in the history; one_by_one is what C46 guarantees of the agent except for C68."
  },
  {
   "property": "C51",
   "status": "proved",
   "theorems": [
    "C51_without_expiry",
    "C51_expiry_refuted"
   ],
   "note": "Positive part without deletions for all histories; the property states a defect (REFUTED expectation) by a concrete interleaving, for every outcome."
  },
  {
   "property": "C52",
   "status": "proved",
   "theorems": [
    "C52_one_beat",
    "C52_unsolicited",
    "C52_timeout",
    "C52_timeout_only"
   ],
   "note": "Time is one integer clock; clock never shows 0 (0 means 'no heartbeat in flight' in the code)."
  },
  {
   "property": "C53",
   "status": "proved",
   "theorems": [
    "C53_once",
    "C53_own_result",
    "C53_resolved",
    "C53_graph_resolved"
   ],
   "note": "The steps of submit and get interleave with the connector thread; message handlers and dictionary operations are atomic. Ids are new (uuid1)."
  },
  {
   "property": "C54",
   "status": "proved",
   "theorems": [
    "C54_upload_first",
    "C54_not_too_often",
    "C54_released",
    "C54_requested"
   ],
   "note": "What is owed is counted from the history (Spec/ClientSpec.v: owed)."
  },
  {
   "property": "C55",
   "status": "proved",
   "theorems": [
    "C55_stuck",
    "C55_forgotten_refuted"
   ],
   "note": "The property states a defect (REFUTED expectation): a concrete interleaving, and a theorem about every continuation of every such state."
  },
  {
   "property": "C56",
   "status": "proved",
   "theorems": [
    "C56_one_call_per_item",
    "C56_results_in_order",
    "C56_returns",
    "C56_first_error",
    "C56_one_shot_refuted",
    "C56_bad_item",
    "C56_too_few"
   ],
   "note": "Part of the property is a defect (REFUTED expectation for one-shot iterators). The futures' values are those of the client model's histories."
  },
  {
   "property": "C57",
   "status": "proved",
   "theorems": [
    "C57_same_call",
    "C57_missing",
    "C57_keyword_only_refuted",
    "C57_positional_right",
    "C57_dropped_keyword_refuted"
   ],
   "note": "Python's calling convention is specified separately (binds in Spec/ClientCallsSpec.v). The last sentence is a defect (REFUTED expectation), for every accepted call."
  },
  {
   "property": "C58",
   "status": "proved",
   "theorems": [
    "C58_own_future",
    "C58_own_value",
    "C58_repeated_refuted"
   ],
   "note": "The second sentence is a defect (REFUTED expectation), for every graph with two computed nodes."
  },
  {
   "property": "C59",
   "status": "proved",
   "theorems": [
    "C59_rejects",
    "C59_same_computation",
    "C59_value_exists"
   ],
   "note": "md5 is an explicit parameter, injective on the function contents of the graph; uuid1 ids are distinct."
  },
  {
   "property": "C60",
   "status": "proved",
   "theorems": [
    "C60_failed_graph_refuted",
    "C60_ended_graph_refuted"
   ],
   "note": "The property states a defect (REFUTED expectation), for every run and continuation."
  },
  {
   "property": "C61",
   "status": "proved",
   "theorems": [
    "C61_exit",
    "C61_ended_task_refuted",
    "C61_after"
   ],
   "note": "The last sentence is a defect (REFUTED part), for every run and continuation."
  },
  {
   "property": "C62",
   "status": "proved",
   "theorems": [
    "C62_submit_gives_function_value",
    "C62_get_gives_graph_value",
    "C62_values_determined",
    "C62_pure_submit",
    "C62_pure_map",
    "C62_submit_error_reported",
    "C62_get_error_reported"
   ],
   "note": "Hypothesis identified: task, graph and function ids (uuid1 and md5 in the code) name one thing each, and task ids are not empty. The network may deliver any sent message any number of times in any order or never. Values are what the user's function returned in that run; C62_pure_submit and C62_values_determined give the function's value when it depends only on its arguments."
  },
  {
   "property": "C63",
   "status": "proved",
   "theorems": [
    "C63_decimal",
    "C63_bytes",
    "C63_bytes_below_1024_refuted",
    "C63_integer",
    "C63_microseconds",
    "C63_seconds"
   ],
   "note": "Python floats are modelled exactly as 53-bit binary fractions. The third sentence is a defect (REFUTED expectation that the number is below the next unit)."
  },
  {
   "property": "C64",
   "status": "proved",
   "theorems": [
    "C64_merge",
    "C64_concat",
    "C64_truncate",
    "C64_print",
    "C64_print_ragged",
    "C64_cell_text",
    "C64_screen",
    "C64_contents"
   ],
   "note": "The workers are sorted by any of the nine columns with a shortcut; in C64_contents the rows follow that order. The text of a float in the format .1% is opaque, its value for sorting is a multiple of a fixed unit (all finite floats are multiples of 2^-1074). curses itself is not modelled."
  },
  {
   "property": "C65",
   "status": "proved",
   "theorems": [
    "C65_survives"
   ],
   "note": "Well-behaved is the definition welcome of Spec/WorkerSpec.v."
  },
  {
   "property": "C66",
   "status": "proved",
   "theorems": [
    "C66_true_beats"
   ],
   "note": ""
  },
  {
   "property": "C67",
   "status": "proved",
   "theorems": [
    "C67_dead_processor_silent",
    "C67_worker_stuck",
    "C67_killed_refuted"
   ],
   "note": "The property states a defect (REFUTED expectation): general theorems for silence and the stuck agent, concrete runs for the ways to get there."
  },
  {
   "property": "C68",
   "status": "proved",
   "theorems": [
    "C68_unexpected_function",
    "C68_stale_function_refuted"
   ],
   "note": "The property states a defect (REFUTED expectation)."
  },
  {
   "property": "C69",
   "status": "proved",
   "theorems": [
    "C69_cancelled_result_refuted",
    "C69_cancelled_exit_refuted"
   ],
   "note": "The property states a defect (REFUTED expectation)."
  },
  {
   "property": "C70",
   "status": "proved",
   "theorems": [
    "C70_no_worker_refuted"
   ],
   "note": "The property states a defect (REFUTED expectation)."
  },
  {
   "property": "C71",
   "status": "proved",
   "theorems": [
    "C71_early_echo_refuted",
    "C71_echo"
   ],
   "note": "The property states a defect (REFUTED expectation)."
  },
  {
   "property": "C72",
   "status": "proved",
   "theorems": [
    "C72_only_wanted_work"
   ],
   "note": "Hypothesis identified as for C62."
  },
  {
   "property": "C73",
   "status": "proved",
   "theorems": [
    "C73_survives_graphs",
    "C73_not_found_refuted",
    "C73_any_sender_refuted"
   ],
   "note": "'Well-behaved' is the definition [polite_graphs] of Spec/TrafficSpec.v. What lies outside it is covered by C38, C43-C45 and DESIGN section 7. C73_not_found_refuted and C73_any_sender_refuted show two limits."
  },
  {
   "property": "C74",
   "status": "proved",
   "theorems": [
    "C74_graph_progress",
    "C74_graph_somewhere",
    "C74_finished_graph_answered"
   ],
   "note": "Hypotheses as for C73. A progress invariant: it does not say when workers answer."
  },
  {
   "property": "C75",
   "status": "proved",
   "theorems": [
    "C75_no_dead_end",
    "C75_idle_owes_nothing",
    "C75_queue_size_needed"
   ],
   "note": "Existence of a completion, by nested induction on pending graphs and unsettled ids. C75_queue_size_needed: without room nothing is ever placed."
  },
  {
   "property": "C76",
   "status": "proved",
   "theorems": [
    "C76_equals_sign",
    "C76_scheduler_options",
    "C76_cluster_options",
    "C76_wrong_line_refused",
    "C76_address_needed"
   ],
   "note": "Argument lists in the modelled subset of argparse: options by exact name, as two words or as name=value (C76_equals_sign: they mean the same); no abbreviations, no --help. C76_wrong_line_refused and C76_address_needed: any line with a bad value, an option without value, or not exactly one good address is refused by both commands."
  },
  {
   "property": "C77",
   "status": "proved",
   "theorems": [
    "C77_balance_seconds_refuted",
    "C77_no_limit"
   ],
   "note": "(REFUTED expectation) load_balance_seconds only switches balancing on; C77_no_limit is positive."
  },
  {
   "property": "C78",
   "status": "proved",
   "theorems": [
    "C78_combo",
    "C78_event_loop_refuted",
    "C78_bad_combo_refuted"
   ],
   "note": "Positive C78_combo; two REFUTED expectations."
  },
  {
   "property": "C79",
   "status": "proved",
   "theorems": [
    "C79_scheduler_starts",
    "C79_monitors_distinct"
   ],
   "note": "Addresses as accepted by the address parser."
  },
  {
   "property": "C80",
   "status": "proved",
   "theorems": [
    "C80_workers_started",
    "C80_no_workers",
    "C80_signal_ends_cluster",
    "C80_late_signal_refuted",
    "C80_early_signal_refuted",
    "C80_single_worker_refuted"
   ],
   "note": "Positive parts and REFUTED expectations about early and late signals. Starting a process is one step of the model."
  },
  {
   "property": "C81",
   "status": "proved",
   "theorems": [
    "C81_nobody_crashes"
   ],
   "note": "About the composed system of Model/System.v. The conditions are Spec/FlowSpec.v: orderly. Graphs are added in C86; cancelling and disconnecting are not part of it (C61 and C52 treat them for single parts)."
  },
  {
   "property": "C82",
   "status": "proved",
   "theorems": [
    "C82_no_dead_ends"
   ],
   "note": "Possibility of completion, not fairness: it says that no reachable state is a dead end. The continuation is built in Proofs/FlowFinish.v with explicit bounds on the work left."
  },
  {
   "property": "C83",
   "status": "proved",
   "theorems": [
    "C83_at_most_once",
    "C83_silent_worker_refuted"
   ],
   "note": "Calls are counted over the histories of all processors (Spec/OnceSpec.v). At most once, not exactly once: a task whose function left the processor's cache between the lookup and the call fails without a call. C83_silent_worker_refuted: (REFUTED expectation) for a worker that is silent for too long."
  },
  {
   "property": "C84",
   "status": "proved",
   "theorems": [
    "C84_kept",
    "C84_forgotten"
   ],
   "note": "Both directions. C84_kept needs only that times do not go back; C84_forgotten assumes that the agent behaves (one_by_one, C46), that the processor lives and has no task at hand, and that the cleaner finishes the pass it is in and the next one."
  },
  {
   "property": "C85",
   "status": "proved",
   "theorems": [
    "C85_punctual",
    "C85_nobody_given_up",
    "C85_timeout_too_short_refuted",
    "C85_patience_too_short_refuted"
   ],
   "note": "Spec/PunctualSpec.v says what is punctual; times are those of one clock that does not run backwards (the code compares only times read on the same machine). The two _refuted theorems show that both bounds are tight."
  },
  {
   "property": "C86",
   "status": "proved",
   "theorems": [
    "C86_nobody_crashes",
    "C86_without_graphs",
    "C86_failing_node_refuted"
   ],
   "note": "About the composed system of Model/System.v. The conditions are Spec/GraphFlowSpec.v: orderly_graphs. C86_without_graphs shows that the executions of C81 are among them. C86_failing_node_refuted is a defect (REFUTED expectation): an exception of user code in a graph node ends the scheduler with a KeyError."
  },
  {
   "property": "C87",
   "status": "proved",
   "theorems": [
    "C87_no_dead_ends"
   ],
   "note": "Possibility of completion, not fairness, for the composed system with graphs (orderly_graphs of Spec/GraphFlowSpec.v). nodes_intact is needed because a processor whose cleaner deleted a node's function reports the node as failed (C51), which is not an orderly execution (C86_failing_node_refuted). The continuation is built in Proofs/GraphFinish.v, GraphDrive.v and GraphEnd.v; Proofs/GraphTold.v and GraphDone.v show that every answered graph's futures are set."
  },
  {
   "property": "C88",
   "status": "proved",
   "theorems": [
    "C88_at_most_once"
   ],
   "note": "Calls are counted as in C83 (Spec/OnceSpec.v), in the executions of C86. At most once, not exactly once: a node whose function left the processor's cache fails without a call (C51), and an execution may stop anywhere; C87 says that it can be finished."
  },
  {
   "property": "C89",
   "status": "proved",
   "theorems": [
    "C89_punctual",
    "C89_nobody_given_up"
   ],
   "note": "C85 for the executions of C86 (calm_graphs of Spec/PunctualSpec.v: orderly_graphs without its two conditions on silence). That neither timeout can be shorter is shown in C85."
  },
  {
   "property": "C90",
   "status": "proved",
   "theorems": [
    "C90_outcome",
    "C90_cancelled",
    "C90_only_cancelled",
    "C90_blocks",
    "C90_stable"
   ],
   "note": "Outcome, cancellation, blocking and stability; the crash that cancelling causes elsewhere is C69."
  },
  {
   "property": "C91",
   "status": "proved",
   "theorems": [
    "C91_spacing",
    "C91_worker",
    "C91_function",
    "C91_scheduler"
   ],
   "note": "The bounds are tight (examples). Durations of turns and oversleeping are inputs of the loop model."
  },
  {
   "property": "C92",
   "status": "proved",
   "theorems": [
    "C92_binder",
    "C92_connector",
    "C92_counting_is_harmless",
    "C92_distinct_names",
    "C92_after_an_exception"
   ],
   "note": "Model/Counters.v models counting at the exact place in routine() and send(); effects are shown equal to those of Model/Transport.v."
  },
  {
   "property": "C93",
   "status": "proved",
   "theorems": [
    "C93_not_too_often",
    "C93_trim",
    "C93_often_enough"
   ],
   "note": "The clock is read once per turn in the model; durations of turns and oversleeping are inputs."
  },
  {
   "property": "C94",
   "status": "proved",
   "theorems": [
    "C94_others_survive",
    "C94_no_task_lost"
   ],
   "note": "Possibility of completion, as in C82. Messages of a dead worker may arrive, in order, until the scheduler gives it up, or be lost from any point on; executions in which something from it arrives after that are left out. User code may be called again for a task whose worker died, so C83 does not hold in these executions (C96 says what does); C62 does, as it holds in all."
  },
  {
   "property": "C95",
   "status": "proved",
   "theorems": [
    "C95_others_survive",
    "C95_nothing_lost"
   ],
   "note": "Possibility of completion, as in C87. Executions in which a node fails are left out: C86_failing_node_refuted shows that they end the scheduler. Messages of a dead worker may arrive, in order, until the scheduler gives it up, or be lost from any point on. User code may be called again for a task or node whose worker died. C96 says how often."
  },
  {
   "property": "C96",
   "status": "proved",
   "theorems": [
    "C96_once_per_worker",
    "C96_again_only_after_death",
    "C96_at_most",
    "C96_never_after_result",
    "C96_never_after_value",
    "C96_never_after_target"
   ],
   "note": "The counterpart of C83 and C88 in executions with deaths. A call is counted also if it raises, and also at a worker that dies right after it. Messages of a dead worker may arrive, in order, until the scheduler gives it up, or be lost from any point on; silent but living workers are C83_silent_worker_refuted."
  },
  {
   "property": "C97",
   "status": "proved",
   "theorems": [
    "C97_every_report_drawn",
    "C97_order_of_workers",
    "C97_ends"
   ],
   "note": "json.loads is an arbitrary function from the payload to a report or an exception; a report that it returns satisfies report_ok of C64. The key that getch would return is part of the arrival. KeyboardInterrupt and NaN as cpu load are not modelled."
  },
  {
   "property": "C98",
   "status": "proved",
   "theorems": [
    "C98_screen_tells_the_truth",
    "C98_reports_are_drawn",
    "C98_slow_worker_refuted"
   ],
   "note": "Composition of C35, C92 and C64. json.dumps and json.loads are taken to be inverse; the relation becomes leaves open the order of dictionaries, the float of a measured load and its text in the format .1%. The counts per function name are shown but not related to the history (two functions may have one name). C98_slow_worker_refuted is the case outside the bounds."
  },
  {
   "property": "C99",
   "status": "proved",
   "theorems": [
    "C99_published_state",
    "C99_published_cause"
   ],
   "note": "Published means handed to the monitor socket, in order; ZeroMQ may drop messages for slow subscribers. The status of a result is whatever the worker sent."
  },
  {
   "property": "C100",
   "status": "proved",
   "theorems": [
    "C100_delivery",
    "C100_starts",
    "C100_levels",
    "C100_console_refuted",
    "C100_elapsed"
   ],
   "note": "C100_console_refuted shows the clash of a file named 'console' with the terminal, which C100_delivery excludes. CPython's dictConfig is transcribed as far as it is used; rotation and failing writes are not modelled."
  },
  {
   "property": "C101",
   "status": "proved",
   "theorems": [
    "C101_monitor_options",
    "C101_monitor_reaches_scheduler",
    "C101_monitor_bad_address",
    "C101_monitor_usage"
   ],
   "note": "The command-line parser is the one of C76; ZeroMQ's own limits on the number of milliseconds are not modelled."
  }
 ]
}