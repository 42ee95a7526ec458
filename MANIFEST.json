{
 "claims": [
  {
   "property": "C01",
   "status": "proved",
   "theorems": [
    "C01_block_scatter_gather"
   ],
   "note": ""
  },
  {
   "property": "C02",
   "status": "proved",
   "theorems": [
    "C02_block_sizes",
    "C02_block_rejects_exactly_bad_indices"
   ],
   "note": ""
  },
  {
   "property": "C03",
   "status": "proved",
   "theorems": [
    "C03_round_robin_scatter_gather"
   ],
   "note": ""
  },
  {
   "property": "C04",
   "status": "proved",
   "theorems": [
    "C04_parallel_map_is_builtin_map",
    "C04_builtin_map_unique",
    "C04_len_counts_items"
   ],
   "note": ""
  },
  {
   "property": "C05",
   "status": "proved",
   "theorems": [
    "C05_balanced_chunks"
   ],
   "note": ""
  },
  {
   "property": "C06",
   "status": "proved",
   "theorems": [
    "C06_check_means_met",
    "C06_construction",
    "C06_defaults"
   ],
   "note": ""
  },
  {
   "property": "C07",
   "status": "proved",
   "theorems": [
    "C07_unreachable_is_forever",
    "C07_decided_when_all_finished"
   ],
   "note": ""
  },
  {
   "property": "C08",
   "status": "proved",
   "theorems": [
    "C08_check_monotone",
    "C08_dict_roundtrip",
    "C08_reduction_harmless"
   ],
   "note": ""
  },
  {
   "property": "C09",
   "status": "proved",
   "theorems": [
    "C09_sends_allowed",
    "C09_sends_to_registered",
    "C09_blacklist"
   ],
   "note": "C09_sends_allowed holds in every history; the other two state their environment assumption"
  },
  {
   "property": "C10",
   "status": "proved",
   "theorems": [
    "C10_high_water_mark"
   ],
   "note": "C10_double_registration_refuted: the assumption that engines are announced properly is needed"
  },
  {
   "property": "C11",
   "status": "proved",
   "theorems": [
    "C11_life_cycle",
    "C11_at_most_one_reply"
   ],
   "note": ""
  },
  {
   "property": "C12",
   "status": "proved",
   "theorems": [
    "C12_fifo",
    "C12_work_conserving"
   ],
   "note": "C12_fifo_refuted: FIFO fails for tasks with dependencies"
  },
  {
   "property": "C13",
   "status": "proved",
   "theorems": [
    "C13_no_duplicate_execution"
   ],
   "note": "C13_hwm2_refuted: fails for high-water mark 2"
  },
  {
   "property": "C14",
   "status": "proved",
   "theorems": [
    "C14_failures_justified"
   ],
   "note": "C14_reported_refuted: the converse (every impossible dependency is reported) is false"
  },
  {
   "property": "C15",
   "status": "proved",
   "theorems": [
    "C15_stranded_resolved"
   ],
   "note": ""
  },
  {
   "property": "C16",
   "status": "proved",
   "theorems": [
    "C16_retries_honoured",
    "C16_sends_bounded"
   ],
   "note": ""
  },
  {
   "property": "C17",
   "status": "proved",
   "theorems": [
    "C17_leastload",
    "C17_weighted",
    "C17_simple_policies"
   ],
   "note": ""
  },
  {
   "property": "C20",
   "status": "proved",
   "theorems": [
    "C20_query_means",
    "C20_keys",
    "C20_total"
   ],
   "note": "C20_gt_refuted, C20_all_refuted, C20_equality_refuted: counterexamples for $gt, $all and plain values that are not in the last clause"
  },
  {
   "property": "C21",
   "status": "proved",
   "theorems": [
    "C21_reads_latest",
    "C21_map",
    "C21_latest_unique",
    "C21_failed_calls"
   ],
   "note": ""
  },
  {
   "property": "C22",
   "status": "proved",
   "theorems": [
    "C22_counter",
    "C22_size_limit",
    "C22_record_limit",
    "C22_always_returns",
    "C22_evicts_oldest"
   ],
   "note": "C22_small_limit_refuted, C22_hang_refuted show that the hypotheses are needed"
  },
  {
   "property": "C41",
   "status": "proved",
   "theorems": [
    "C41_history"
   ],
   "note": ""
  },
  {
   "property": "C23",
   "status": "proved",
   "theorems": [
    "C23_roundtrip",
    "C23_only_large_data_travel_raw",
    "C23_accepts"
   ],
   "note": "C23_threshold_refuted, C23_set_refuted, C23_nested_memoryview_refuted: limits of the round trip"
  },
  {
   "property": "C24",
   "status": "proved",
   "theorems": [
    "C24_apply_roundtrip"
   ],
   "note": ""
  },
  {
   "property": "C18",
   "status": "proved",
   "theorems": [
    "C18_dead_iff_missed",
    "C18_every_beat"
   ],
   "note": ""
  },
  {
   "property": "C19",
   "status": "proved",
   "theorems": [
    "C19_live",
    "C19_new",
    "C19_responsive"
   ],
   "note": ""
  },
  {
   "property": "C25",
   "status": "proved",
   "theorems": [
    "C25_exactly_once",
    "C25_ends",
    "C25_replies"
   ],
   "note": ""
  },
  {
   "property": "C26",
   "status": "proved",
   "theorems": [
    "C26_at_most_one_complete",
    "C26_every_target_once",
    "C26_arrives",
    "C26_announced_order"
   ],
   "note": "C26_depth2_order_refuted (announced order differs from depth 2 on), C26_threads_refuted (use_threads shares the class-level tables: no reply), C26_status_refuted (status of the last answer only), C26_no_targets_refuted show the limits"
  },
  {
   "property": "C27",
   "status": "proved",
   "theorems": [
    "C27_unique",
    "C27_fresh",
    "C27_granted"
   ],
   "note": "C27_second_restart_refuted: two restarts with no engine coming or leaving in between make the Hub grant the id of a restored engine; C27_pending_grant_refuted: ids granted to engines that never completed registration are granted again after a restart"
  },
  {
   "property": "C28",
   "status": "proved",
   "theorems": [
    "C28_life",
    "C28_start",
    "C28_partition",
    "C28_done",
    "C28_queue",
    "C28_completed_once",
    "C28_lists",
    "C28_lists_new",
    "C28_unassigned"
   ],
   "note": "histories are plausible_history (message numbers used once, results answer requests, no engine takes over the uuid or id of one that left, no restart); C28_id_reuse_refuted, C28_retry_refuted, C28_late_result_dropped show the limits"
  },
  {
   "property": "C29",
   "status": "proved",
   "theorems": [
    "C29_status",
    "C29_results",
    "C29_stored",
    "C29_true",
    "C29_restarted"
   ],
   "note": "C29_restart_two_refuted: after a restart a request for several messages reports the status of the last record for all; C29_restart_status_refuted; C29_purged_refuted"
  },
  {
   "property": "C30",
   "status": "proved",
   "theorems": [
    "C30_ordered",
    "C30_ready",
    "C30_return_exceptions",
    "C30_unordered",
    "C30_arrival_order",
    "C30_map",
    "C30_first_error"
   ],
   "note": "C30_rr_refuted: ordered iteration of a round-robin map before everything is there is in task order, not in get()'s order; C30_aborted_refuted: a map with an aborted task never becomes ready; C30_arg_refuted: get(return_exceptions=True) on a map made without it raises TypeError"
  },
  {
   "property": "C31",
   "status": "proved",
   "theorems": [
    "C31_all_reported",
    "C31_failures_exist",
    "C31_return_exceptions",
    "C31_single",
    "C31_iteration"
   ],
   "note": "C31_composite_refuted, C31_aborted_refuted show the limits"
  },
  {
   "property": "C42",
   "status": "proved",
   "theorems": [
    "C42_multi_future",
    "C42_never_early",
    "C42_stable"
   ],
   "note": "callbacks are atomic in the model"
  },
  {
   "property": "C43",
   "status": "proved",
   "theorems": [
    "C43_get_dict",
    "C43_ambiguous",
    "C43_errors"
   ],
   "note": ""
  },
  {
   "property": "C44",
   "status": "proved",
   "theorems": [
    "C44_progress",
    "C44_monotone",
    "C44_complete"
   ],
   "note": "C44_duplicates_refuted: repeated ids are counted once when outstanding"
  },
  {
   "property": "C32",
   "status": "proved",
   "theorems": [
    "C32_ordered",
    "C32_unordered",
    "C32_complete",
    "C32_cancel",
    "C32_errors",
    "C32_values",
    "C32_max_outstanding",
    "C32_no_deadlock",
    "C32_ends",
    "C32_delivers"
   ],
   "note": "C32_input_error_refuted: the future made for an exception of the argument iterator has a get() without keyword arguments, so TypeError comes out; C32_error_recorded_refuted: after an error the map stays in _outstanding_maps and Executor.shutdown waits forever"
  },
  {
   "property": "C45",
   "status": "proved",
   "theorems": [
    "C45_handlers_terminate",
    "C45_histories_processed",
    "C45_outcome_unique",
    "C45_never_stuck"
   ],
   "note": "the recursion depth equals the length of the chain of dependents; Python's recursion limit (RecursionError for long chains) is not modelled"
  },
  {
   "property": "C33",
   "status": "proved",
   "theorems": [
    "C33_restored",
    "C33_body",
    "C33_invariant",
    "C33_not_entered"
   ],
   "note": "C33_failed_entry_refuted: when setting the temporary flags fails, those set before the failure stay (view.py 184 is outside the try)"
  },
  {
   "property": "C34",
   "status": "proved",
   "theorems": [
    "C34_recorded",
    "C34_outstanding",
    "C34_nested",
    "C34_others"
   ],
   "note": "C34_no_messages_refuted, C34_twice_refuted, C34_direct_map_refuted show the limits; one thread per client"
  },
  {
   "property": "C46",
   "status": "proved",
   "theorems": [
    "C46_dependency_meaning",
    "C46_accepted"
   ],
   "note": "C46_dict_refuted: dict dependencies"
  },
  {
   "property": "C35",
   "status": "proved",
   "theorems": [
    "C35_aborted_not_run",
    "C35_others_unaffected",
    "C35_one_reply",
    "C35_unique_ids"
   ],
   "note": "C35_stale_abort_refuted: an abort arriving after the task ran stays in the set; C35_no_ids_no_reply: an abort request without msg_ids gets no reply; ipykernel's dispatch and _abort_queues are outside the model"
  },
  {
   "property": "C47",
   "status": "proved",
   "theorems": [
    "C47_call",
    "C47_no_trace",
    "C47_reply",
    "C47_references"
   ],
   "note": "user code is a parameter; printed output and tracebacks are not modelled"
  },
  {
   "property": "C48",
   "status": "proved",
   "theorems": [
    "C48_unsatisfied",
    "C48_flag",
    "C48_depend",
    "C48_require"
   ],
   "note": ""
  },
  {
   "property": "C36",
   "status": "proved",
   "theorems": [
    "C36_bijection",
    "C36_operations",
    "C36_last_value",
    "C36_both_sides"
   ],
   "note": "Consistency needs the histories to be free of clashes; without that it is refuted: C36_stale_refuted (reassigning a key leaves the old value pointing to it), C36_pop_refuted (two keys with one value: popping raises), C36_value_check_refuted (a value may be an existing key)."
  },
  {
   "property": "C37",
   "status": "proved",
   "theorems": [
    "C37_client",
    "C37_submitted",
    "C37_outstanding",
    "C37_reply",
    "C37_result_final",
    "C37_engine_death",
    "C37_output",
    "C37_settled",
    "C37_wait"
   ],
   "note": "Refinement of the client's dictionaries to a small specification (Client_Spec). Refuted: C37_unreadable_refuted (a reply that cannot be deserialized: not outstanding, future pending for ever), C37_broadcast_refuted (a non-coalescing broadcast stays outstanding for ever), C37_duplicate_refuted (a duplicate reply raises in the handler and overwrites client.results)."
  },
  {
   "property": "C39",
   "status": "proved",
   "theorems": [
    "C39_status",
    "C39_results",
    "C39_asked",
    "C39_one_cached"
   ],
   "note": "The property as first written is refuted: C39_cache_refuted (of two cached ids one is asked of the Hub, and the call fails if the Hub lacks it), C39_twice_refuted (repeated ids are reported twice or crash), C39_aborted_refuted (an aborted task's result makes the call crash), C39_raise_refuted (errors are raised only the first time)."
  },
  {
   "property": "C40",
   "status": "proved",
   "theorems": [
    "C40_db_query",
    "C40_fails"
   ],
   "note": "On top of the in-memory database (DictDB_Model). Conversion of dates on the way is not modelled."
  },
  {
   "property": "C38",
   "status": "proved",
   "theorems": [
    "C38_query",
    "C38_agree"
   ],
   "note": "The SQL text is modelled as tokens, parsed by a recursive-descent parser with SQL's precedences, three-valued logic and positional parameters. The property as first written is refuted: C38_ne_null_refuted ($ne/$nin do not find NULL), C38_empty_refuted (the empty query and $in [] are syntax errors), C38_timezone_refuted (times in other timezones are compared as text), C38_join_refuted ($lt with a list: UnboundLocalError or, after $in, nonsense)."
  },
  {
   "property": "C49",
   "status": "proved",
   "theorems": [
    "C49_ids",
    "C49_targets",
    "C49_views"
   ],
   "note": "No notification arrives during the call; with the notification thread it is refuted for 'all': C49_race_refuted (ids and uuids out of step, so results are attributed to the wrong engines). C49_gone_refuted: a view rc[:] fails for all its engines as soon as one has gone."
  },
  {
   "property": "C50",
   "status": "proved",
   "theorems": [
    "C50_list",
    "C50_one",
    "C50_asked_only"
   ],
   "note": "Limits: C50_handle_refuted (get_result of one AsyncResult of several messages gives only the first), C50_mixed_refuted (jobs known here are dropped from a list with one for the Hub), C50_awaited_refuted (a list with a finished and an awaited message raises AttributeError or KeyError)."
  },
  {
   "property": "C51",
   "status": "proved",
   "theorems": [
    "C51_wait",
    "C51_ready"
   ],
   "note": "The messages are distinct and not outstanding in this client. C51_raises_refuted: wait and ready raise the error of a task the first time it is seen, while others are pending; C51_twice_refuted: a repeated id with owner=True makes wait raise KeyError."
  },
  {
   "property": "C52",
   "status": "proved",
   "theorems": [
    "C52_resubmit",
    "C52_missing"
   ],
   "note": "C52_metadata_refuted: the copy has none of the original's metadata (dependencies, targets, retries, timeout); C52_twice_refuted: a repeated id fails with an error naming no task. Database failures in the middle are not modelled."
  },
  {
   "property": "C53",
   "status": "proved",
   "theorems": [
    "C53_no_idle_engine",
    "C53_plain_waits_only_when_busy",
    "C53_policies"
   ],
   "note": "High-water mark 1 (the default). C53_after_giving_back_refuted: a task with retries left whose only engine failed it waits forever although that engine is idle, hence the exception in the statement."
  },
  {
   "property": "C54",
   "status": "proved",
   "theorems": [
    "C54_contents",
    "C54_latest_unique",
    "C54_failed_calls",
    "C54_history",
    "C54_durable"
   ],
   "note": "SQLite itself (primary key, atomic statements, transactions undone up to the last commit by a crash) is modelled as documented, not verified. Suitable values: datetimes of one timezone, dicts only in the columns for dicts. Limits shown: C54_dict_refuted (the Hub stores the contents of execute_result and error messages in text columns, so they come back as JSON text), C54_empty_refuted, C54_missing_refuted (updating or dropping an unknown id is silently ignored, unlike in the in-memory database)."
  },
  {
   "property": "C55",
   "status": "proved",
   "theorems": [
    "C55_local",
    "C55_local_returns",
    "C55_hub_memory",
    "C55_hub_sql",
    "C55_both",
    "C55_asks",
    "C55_everything"
   ],
   "note": "Purging by engine, which the documentation promises, does not work: C55_local_targets_refuted (the client compares text with bytes and forgets nothing), C55_memory_engines_refuted (the in-memory database silently removes nothing, because of C20_equality_refuted), C55_sql_engines_refuted (with SQLite it is an error unless ids are given too). C55_zero_refuted: engine 0 and history entry 0 count as nothing given. C55_none_refuted: targets=None fails after the records were removed."
  },
  {
   "property": "C56",
   "status": "proved",
   "theorems": [
    "C56_record",
    "C56_pending",
    "C56_order"
   ],
   "note": "C56_broadcast_output_first_refuted: if an output of a broadcast comes first, add_record fails and the request is never recorded. C56_display_data_refuted: display_data is not a column, so SQLite loses it. C56_late_result_refuted: a direct result that comes after its engine was unregistered is dropped and the task recorded as failed (the comment at line 541 promises otherwise)."
  },
  {
   "property": "C57",
   "status": "proved",
   "theorems": [
    "C57_carriage_returns",
    "C57_captured",
    "C57_done",
    "C57_complete"
   ],
   "note": "C57_cut_refuted: the stored text depends on how it was cut (a carriage return that ends a piece is applied only when another one comes), which is why the statement speaks of what the text shows. C57_after_failure_refuted: outputs that come after a reply without engine_info (such as the one the client makes up when an engine is unregistered) go to a new metadata object that no AsyncResult has."
  },
  {
   "property": "C58",
   "status": "proved",
   "theorems": [
    "C58_relay",
    "C58_signal_requests",
    "C58_exit",
    "C58_calls",
    "C58_abort_named",
    "C58_send_signal",
    "C58_shutdown_hub",
    "C58_shutdown_engines",
    "C58_restart"
   ],
   "note": "C58_abort_nothing_refuted: abort with nothing to name (an empty list, or none outstanding) makes the engines throw away everything queued, of any client. C58_hub_spared_refuted: shutdown(hub=True) tells the Hub to stop even if an engine failed, raises and leaves the client open. C58_reply_type_refuted: the nanny's answers have type '_request' (nanny.py 156). The nanny's start-up and failures while it notifies the Hub are not modelled."
  },
  {
   "property": "C59",
   "status": "proved",
   "theorems": [
    "C59_known",
    "C59_stop_cluster",
    "C59_stop_engines",
    "C59_stop_controller",
    "C59_new_id"
   ],
   "note": "C59_reused_id_refuted: starting engines with an engine_set_id in use makes the Cluster forget the engines it had under it, and stop_cluster leaves them. C59_stale_stop_refuted: a second stop_engines call for a set that waits while the id is used again forgets the new engines. Local processes only; processes ids are not used again."
  },
  {
   "property": "C60",
   "status": "proved",
   "theorems": [
    "C60_listed",
    "C60_reload",
    "C60_gone"
   ],
   "note": "C60_failed_start_refuted: a start of engines that fails half-way leaves engines that are not in the file (a Cluster made from it never stops them); C60_stale_file_refuted: and the file is then not removed when everything has ended. C60_reused_pid_refuted: from_file takes any process that has got the id of an ended one for it, and stops it. C60_gone supposes that no engine set has 0 engines and that the controller did not fail to start."
  },
  {
   "property": "C61",
   "status": "proved",
   "theorems": [
    "C61_set_notice",
    "C61_at_most_once",
    "C61_all",
    "C61_controller_notice"
   ],
   "note": "Counting is without reloads (a Cluster made from the file can notice an end that its predecessor noticed too). Sets of 0 engines never report a stop."
  },
  {
   "property": "C62",
   "status": "proved",
   "theorems": [
    "C62_streamed",
    "C62_once",
    "C62_errors",
    "C62_terminal",
    "C62_notebook",
    "C62_leave"
   ],
   "note": "C62_race_refuted: an output that comes between registration and publication is shown twice. C62_notebook_overwrites_refuted: in a notebook the text that engines had printed before is shown in one place, each replacing that of the one before. C62_same_request_refuted: with the same request twice a callback stays behind. C62_load_balanced_refuted: for a load-balanced view stream_output raises TypeError. Errors that came before stream_output are not shown."
  },
  {
   "property": "C63",
   "status": "proved",
   "theorems": [
    "C63_all",
    "C63_single",
    "C63_order",
    "C63_bad_groupby",
    "C63_terminal"
   ],
   "note": "C63_order_refuted: with groupby='order' objects of a request that has fewer than another are not shown. C63_order_engine_refuted: if an engine ran two of the requests, those of one are shown twice and of the other never. The `wait` / KeyboardInterrupt parts of display_outputs are not modelled."
  },
  {
   "property": "C64",
   "status": "proved",
   "theorems": [
    "C64_results_deserved",
    "C64_result_final",
    "C64_result_ends",
    "C64_outstanding",
    "C64_one_at_a_time",
    "C64_begins_again",
    "C64_begins_again_after",
    "C64_executions_bounded"
   ],
   "note": "The composition of the client model (C37) and the scheduler model (C09-C17) with message queues, engines and the Hub's announcements. Any number of clients, joining at any time, which may depend on each other's tasks; clients stay. C64_other_client_refuted: a dependency on a task another client has submitted before may be refused as invalid, because the scheduler has not seen that submission yet. The Hub declares dead only engines that are; the scheduler's 5 s timer for a dead engine fires when no result of it is on its way any more."
  },
  {
   "property": "C65",
   "status": "proved",
   "theorems": [
    "C65_comes_to_rest",
    "C65_can_rest",
    "C65_nothing_runs",
    "C65_done_or_blocked",
    "C65_plain",
    "C65_done_or_needs_failed",
    "C65_all_done"
   ],
   "note": "C65_failed_dependency_refuted: a task that depends on a failed task need not be failed: with after=[failed, pending] where another task waits for the pending one, the scheduler drops it (KeyError in fail_unreachable) and it never gets a result. C65_chain_refuted: even in a chain 0 -> 1 -> 2 of single dependencies the last task can wait for ever after the first failed, because the queue is put back in the opposite order. Timeouts and message losses other than through dying engines count as steps from outside."
  },
  {
   "property": "C66",
   "status": "proved",
   "theorems": [
    "C66_patient",
    "C66_exact",
    "C66_gone",
    "C66_seen",
    "C66_disabled"
   ],
   "note": "C66_clock_refuted: the times are read with time.time(); if the clock is set back, one check can count as missed although a ping came, which stops an engine with n = 1."
  },
  {
   "property": "C67",
   "status": "proved",
   "theorems": [
    "C67_serial",
    "C67_push",
    "C67_push_error",
    "C67_pull",
    "C67_pull_all",
    "C67_push_pull"
   ],
   "note": "C67_tmp_refuted: pushing the name _IP_PUSH_TMP_ succeeds but the name is gone. C67_channels_refuted: a pull through another kind of view may be executed before a push that was sent before it. Only plain names are modelled (Python also accepts a.b or a[0] in push and expressions in pull)."
  },
  {
   "property": "C68",
   "status": "proved",
   "theorems": [
    "C68_scatter",
    "C68_scatter_gather",
    "C68_flatten",
    "C68_ready",
    "C68_map",
    "C68_map_clean"
   ],
   "note": "C68_range_refuted: a scattered range or string is gathered as the list of its partitions. C68_flatten_refuted, C68_flatten_lists_refuted: with flatten, gather fails when partitions have different sizes, and concatenates items that are lists. C68_map_lengths_refuted: BroadcastView.map on sequences of different lengths combines items that do not belong together, without an error. C68_map_nothing_refuted: without sequences it fails."
  },
  {
   "property": "C69",
   "status": "proved",
   "theorems": [
    "C69_distinct",
    "C69_sources",
    "C69_count",
    "C69_own_pool",
    "C69_served",
    "C69_reuse",
    "C69_range",
    "C69_valid"
   ],
   "note": "As stated. Refuted, with proofs: the help says 14 ports (16 by default) are needed, 15 (18) are (C69_documented_numbers_refuted); with reuse_files and a pool `ports` the inner sockets are given the first ports of the pool again, which the files already use (C69_reuse_pool_refuted); the deprecated settings mux=(a,b) etc. put a into both pools (C69_deprecated_refuted); a random port can be one of a pool that is drawn later (C69_random_refuted); 65536 is accepted as a port (C69_last_port_refuted)."
  },
  {
   "property": "C70",
   "status": "proved",
   "theorems": [
    "C70_tree",
    "C70_no_clash",
    "C70_channels",
    "C70_registration",
    "C70_route",
    "C70_inner"
   ],
   "note": "Addresses that are not wildcards; ssh tunnels and CURVE are not modelled. Refuted for ipc: the controller joins interface and port with '-', clients and engines with ':' (C70_ipc_refuted)."
  },
  {
   "property": "C71",
   "status": "proved",
   "theorems": [
    "C71_known",
    "C71_ready",
    "C71_timeout",
    "C71_gone",
    "C71_stopped",
    "C71_once",
    "C71_deadline",
    "C71_register",
    "C71_first",
    "C71_prompt"
   ],
   "note": "As stated; each notice is handled as a whole, a call in three steps. The unrestricted 'a wait returns as soon as there are n engines' is refuted in two ways: of two waits that end at the same notice the second is skipped, since the callbacks remove themselves from the list iterated over (C71_two_waits_refuted); an engine that registers between the look and the installation of the callback is not noticed (C71_window_refuted)."
  },
  {
   "property": "C72",
   "status": "proved",
   "theorems": [
    "C72_restored",
    "C72_local",
    "C72_forwarded",
    "C72_which",
    "C72_printed",
    "C72_not_local",
    "C72_engines",
    "C72_raises",
    "C72_same"
   ],
   "note": "As stated; requests run on each engine in the order of sending (C67); blocks are not nested in each other; `as` is left out (documented as ignored). The documented 'simultaneous local and remote imports' is refuted in five ways: after a function called in the block has imported something (C72_nested_refuted), or after a caught ImportError (C72_caught_refuted), later imports do not reach the engines, since __import__ is not put back; import a.b binds the name 'a.b' instead of a (C72_dotted_refuted); from a import * always fails on the engines (C72_star_refuted); an import repeated after another that bound the same name is not repeated there (C72_again_refuted)."
  },
  {
   "property": "C73",
   "status": "proved",
   "theorems": [
    "C73_log",
    "C73_submissions",
    "C73_settings",
    "C73_config",
    "C73_slice",
    "C73_not_sent",
    "C73_cell",
    "C73_line",
    "C73_local",
    "C73_result"
   ],
   "note": "As stated; verbose messages, progress bars and the grouping of outputs are left out. C73_local_interrupt_refuted: Ctrl-C while %%px --local waits after the local execution sends no signal to the engines."
  },
  {
   "property": "C74",
   "status": "proved",
   "theorems": [
    "C74_said",
    "C74_on",
    "C74_switch_off",
    "C74_off",
    "C74_switch_on",
    "C74_invalid"
   ],
   "note": "For one view. C74_suffix_refuted: %autopx of a view with a suffix is not switched off by its own magic (the pattern %autopx\\b does not match '%autopx_x'): that cell is sent to the engines. C74_two_views_refuted: with two views, switching both on and then off in the wrong order within a cell leaves the shell with the first view's run_cell although both are said to be off: nothing runs locally for the rest of the session."
  },
  {
   "property": "C75",
   "status": "proved",
   "theorems": [
    "C75_ids",
    "C75_up_to_date"
   ],
   "note": "Without a restart of the controller after the answer; messages on one socket keep their order and are not lost. C75_race_new_refuted, C75_race_dead_refuted: the client subscribes only after it has received the answer, so an engine that registers in between is never in client.ids, and one that leaves in between stays there for ever (unless the Hub tells something more of that id)."
  },
  {
   "property": "C76",
   "status": "proved",
   "theorems": [
    "C76_wait",
    "C76_first_exception",
    "C76_interactive",
    "C76_interactive_ends"
   ],
   "note": "concurrent.futures.wait is taken to behave as documented. AsyncMapResult and AsyncHubResult are left out: AsyncHubResult.wait ignores return_when and returns a bool, which get(FIRST_EXCEPTION) and wait_interactive(FIRST_...) cannot unpack. wait_interactive never raises TimeoutError although its documentation says so. C76_shape_refuted: with return_exceptions=True get(FIRST_EXCEPTION) of several tasks returns one exception instead of a list."
  },
  {
   "property": "C77",
   "status": "proved",
   "theorems": [
    "C77_wall",
    "C77_serial",
    "C77_speedup",
    "C77_elapsed"
   ],
   "note": "Times are counted in microseconds as integers (total_seconds, a float, is not modelled). C77_dead_engine_refuted: serial_time of results that are all there raises if an engine died."
  },
  {
   "property": "C78",
   "status": "proved",
   "theorems": [
    "C78_shutdown",
    "C78_returns",
    "C78_recorded"
   ],
   "note": "Built on the model of imap of C32. C78_error_hangs_refuted: if the exception of a task came out of a map, shutdown(wait=True), and so the end of a with statement, never returns. C78_direct_refuted: the executor of a DirectView cannot be shut down with wait=True, it raises AttributeError (_outstanding_maps). C78_cancelled_refuted: after cancel() one more task may be sent for which shutdown does not wait. C78_threads_refuted: save_ids is not safe for threads: of two threads that submit at once a task can be missing in view.history, and is then not waited for."
  },
  {
   "property": "C79",
   "status": "proved",
   "theorems": [
    "C79_alive",
    "C79_silent",
    "C79_alive_unless_restarted",
    "C79_granted_and_beating",
    "C79_leaving_is_told",
    "C79_joins"
   ],
   "note": "Composition of the models of the Hub (C27) and of the heart monitor (C18, C19) with the queue of messages between the two processes. C79_late_beat_refuted: if the first beat comes after registration_timeout, the engine never becomes registered, however long it answers, and does not notice (a heart is announced once, and the Hub ignores it then). C79_silence_is_for_ever_refuted: an engine that was silent for too long and answers again is not registered again. C79_dead_after_restart_refuted: an engine that died while the controller was restarted is never removed, the new heart monitor does not know it."
  },
  {
   "property": "C80",
   "status": "proved",
   "theorems": [
    "C80_quoting",
    "C80_runs",
    "C80_slurm_engines",
    "C80_number",
    "C80_one_controller",
    "C80_queue",
    "C80_output",
    "C80_slurm_settings",
    "C80_names",
    "C80_interpreter",
    "C80_again"
   ],
   "note": "Batch_Spec has a lexer of the POSIX shell (quotes, escapes, comments, words; anything that would be an expansion, a redirection, a keyword or an assignment counts as running something else) and a reader of directives. Findings: C80_output_refuted: on SGE the output file is never asked for, the line is written with the mark of PBS. C80_slurm_options_refuted: the trait options of the Slurm launchers never reaches the default script. C80_lsf_name_refuted: the LSF controller's job is named ipengine[1-1]. C80_odd_names_refuted: a program called a=b is taken for an assignment. C80_settings_are_trusted_refuted: settings are not quoted, a queue of two lines is a command. Not modelled: templates of the user, HTCondor, submission and job ids."
  },
  {
   "property": "C81",
   "status": "proved",
   "theorems": [
    "C81_encoding",
    "C81_start",
    "C81_running",
    "C81_exists",
    "C81_kill",
    "C81_remove"
   ],
   "note": "json.dumps and json.loads (with escapes and surrogate pairs) and base64 are modelled and proved to be inverse; the regular expression that finds the pid is modelled on any text. C81_default_signal_refuted: cmd_kill without a signal (the default) always raises, the receiver calls os.kill(pid, None). C81_unfinished_line_refuted: if the shell leaves an unfinished line before the answer, the process may run although cmd_start raises. C81_surrogates_refuted: texts with surrogates may be altered. Also found by reading: the work-around for Windows without breakaway is dead code (the method is never called 'start'), and would raise KeyError (the template has json_params); ipyparallel/shellcmd.py cannot be imported (ShellCommandReceive is not a name of cluster/shellcmd.py). Not modelled: Windows, mkdir and rmdir, the debugging log."
  },
  {
   "property": "C82",
   "status": "proved",
   "theorems": [
    "C82_number",
    "C82_allocation",
    "C82_identifiers",
    "C82_port_read",
    "C82_arguments",
    "C82_no_ports",
    "C82_files"
   ],
   "note": "C82_ports_refuted: one would expect every host to be contacted on its own port; but the launchers of the engines share the list ssh_args (traitlets keeps the object), so the first port is used for all hosts after it, and their own ports are ignored. Also found by reading: _fetch_file creates directories with mode 700 decimal (0o1274: the owner may not enter it); overrides.pop('n') changes the configuration, a second start with the same launcher starts one engine for such hosts; ssh_waitpid always reports exit code -1. Not modelled: settings per host other than n and ssh_args, failures while starting."
  },
  {
   "property": "C83",
   "status": "proved",
   "theorems": [
    "C83_where",
    "C83_listed",
    "C83_kept",
    "C83_complete",
    "C83_default",
    "C83_files",
    "C83_new",
    "C83_remove",
    "C83_unique",
    "C83_keys",
    "C83_stays",
    "C83_clean_running",
    "C83_clean_raises",
    "C83_clean_done",
    "C83_clean_others"
   ],
   "note": "Launchers are local ones; directories are absolute and have no characters that glob interprets. Refuted beside: keys of clusters whose ids have colons may agree (C83_keys_refuted) and then a file found later replaces a cluster that runs (C83_stays_refuted); a directory named twice is loaded twice, with other cluster objects (C83_twice_refuted); a cluster found dead has no controller and is never dropped from the list, though its file is gone (C83_gone_refuted); the default cluster is not made if there is any cluster file, also a broken one, other than documented (C83_default_refuted); clean_cluster_files without a log (its default) raises AttributeError at the first stopped cluster, because reading its file removed it (C83_clean_log_refuted); when it fails, files of other profiles may be gone (C83_clean_atomic_refuted)."
  },
  {
   "property": "C84",
   "status": "proved",
   "theorems": [
    "C84_safe",
    "C84_noticed",
    "C84_not_stuck",
    "C84_stop",
    "C84_stop_ends",
    "C84_kill",
    "C84_signals"
   ],
   "note": "Process numbers are not used again; stop() is not called while it runs. Refuted beside: one failed poll over ssh ends the waiting thread, and the end is never announced (C84_failed_poll_refuted); a failure of the connection while stop() waits makes it raise without sending KILL (C84_stop_fails_refuted). (Over ssh the exit code is always -1, as ssh_waitpid prints a constant.)"
  },
  {
   "property": "C85",
   "status": "proved",
   "theorems": [
    "C85_split",
    "C85_address",
    "C85_url",
    "C85_client",
    "C85_engine"
   ],
   "note": "Names and addresses of a machine do not change. Refuted beside: is_ip recognises no ip address (re.match has its arguments swapped; harmless where an address resolves to itself); two machines with the same host name: a client connects to itself."
  },
  {
   "property": "C86",
   "status": "proved",
   "theorems": [
    "C86_same_way",
    "C86_way",
    "C86_warned",
    "C86_no_needless_warning",
    "C86_keys",
    "C86_engine"
   ],
   "note": "Refuted beside: a client with only an ssh key, and the file a controller without ssh server writes, tunnels through an empty server name; through ssh only the first of a client's connections carries the controller's key; an engine using ssh connects to its own nanny through the ssh server, and the nanny itself does not use ssh."
  },
  {
   "property": "C87",
   "status": "proved",
   "theorems": [
    "C87_list",
    "C87_create",
    "C87_actions",
    "C87_says",
    "C87_delete",
    "C87_delete_answers"
   ],
   "note": "On the model of the manager of C83. Refuted beside: if the list is asked for after the cluster has ended and before DELETE has, DELETE answers an error although it has stopped the cluster, and removes a new cluster of the same name; a profile given as a path gets a random name even for its first cluster; a deleted nameless cluster is listed again."
  },
  {
   "property": "C88",
   "status": "proved",
   "theorems": [
    "C88_fresh",
    "C88_reused",
    "C88_raises",
    "C88_up",
    "C88_again",
    "C88_no_damage",
    "C88_end",
    "C88_ssh"
   ],
   "note": "One controller at a time uses the files. Refuted beside: killed while writing, every later start that reuses files raises; with CURVE and no configured key pair a controller that reuses its files has another key than they say; a packer configured for the second start is used although the files say another; the location configured for it is not used."
  },
  {
   "property": "C89",
   "status": "proved",
   "theorems": [
    "C89_own",
    "C89_once",
    "C89_not_begun",
    "C89_ends",
    "C89_calm",
    "C89_up",
    "C89_up_since",
    "C89_dir",
    "C89_dir_works",
    "C89_no_sync"
   ],
   "note": "Steps are the lines of _in_thread; what awaits what is left open (a loop may go on with any ready coroutine); own loops are run by their caller alone; termination uses that the five seconds of line 48 run out (a caller that races at first use may wait for another's event). Refuted beside: a background coroutine that ends in a cancellation or exit leaves its caller waiting for ever; a background coroutine that makes a _sync call blocks its own loop for ever; racing first calls can get AttributeError (no _thread_loop) or RuntimeError (thread started twice); coroutine classmethods can be called with _sync but are not in dir."
  },
  {
   "property": "C90",
   "status": "proved",
   "theorems": [
    "C90_agree",
    "C90_distinct",
    "C90_client_right",
    "C90_client_waits",
    "C90_client_soon",
    "C90_engine_right",
    "C90_engine_waits",
    "C90_engine_told",
    "C90_launcher_right",
    "C90_launcher_gets",
    "C90_launcher_waits",
    "C90_source"
   ],
   "note": "Sleeps take the time they are given, the rest none; files are not removed while somebody waits. Refuted beside: Client(url_file=...) is silently ignored (a named argument, looked for in extra_args); with a slash in a cluster id two clusters can share a file; after a crash, what is read may be of the controller before; a client that comes while the file is being written fails (a launcher tries again)."
  },
  {
   "property": "C91",
   "status": "proved",
   "theorems": [
    "C91_given",
    "C91_ready",
    "C91_cluster",
    "C91_closes",
    "C91_works",
    "C91_waits",
    "C91_closes_only",
    "C91_spares",
    "C91_again",
    "C91_jobs",
    "C91_story",
    "C91_calls",
    "C91_called",
    "C91_comes",
    "C91_goes_on"
   ],
   "note": "Clusters and clients are numbers that are open or not; what starting does is in C08, C61; joblib's batching is not modelled. Refuted beside: engines started for a cluster that was found are not stopped; if making the backend fails after the cluster was started or the client was made, they are left (the backend never came to be, so nobody terminates it; only the cleanup at exit does); if the client cannot be closed the cluster is not stopped; a found cluster with fewer engines than it should have is waited for for ever."
  },
  {
   "property": "C92",
   "status": "proved",
   "theorems": [
    "C92_imported",
    "C92_arrives",
    "C92_get",
    "C92_subclass",
    "C92_others",
    "C92_own",
    "C92_made",
    "C92_chain",
    "C92_monotone"
   ],
   "note": "Python's own C3 order is modelled and proved to be kept by subclasses; values of attributes are taken to arrive as they are (C13 and following are about values); no metaclasses, no __slots__. Refuted beside: if ancestors are of __main__ too, each is rebuilt for each occurrence, and in a diamond the class can find another attribute than at home; a class that is sent twice is two classes."
  }
 ]
}