# Formal model of ipyparallel in Rocq (Coq 8.16.1)

## Layout

`properties.jsonl` has the properties in English, `MANIFEST.json` the theorems for each.  Every component `X` has up to
four kinds of files in `rocq/theories/`:

* `X_Spec.v`   – the vocabulary of the English property: short, does not use the model's helpers;
* `X_Model.v`  – the model; every definition cites the `/repo` file and lines it models, simplifications are said there;
* `X_Proofs.v` (and other names for the larger ones) – lemmas and proofs;
* `X_Props.v`  – the property theorems, `Example`s that meet their hypotheses, `_refuted` theorems (counterexamples of
  stronger claims, which are defects or limits of the code), `Print Assumptions`.

`Prelude.v` has results-or-exceptions and a few list functions; `PyValue.v` Python values with their comparison and
membership.  `seeded/LOG.jsonl` records the wrong programs the theorems were tested against.

Policy: a property found false of the code is restated as the strongest version that holds; what was false is kept as a
`_refuted` theorem and listed under *Limits*.

## Trusted base

* Coq 8.16.1's kernel (with `vm_compute`), and the standard library and std++ definitions used in statements
  (lists, `Z`, `Q`, strings, `gmap`, `gset`, `Permutation`, sorting).
* Assumptions: `Print Assumptions` follows each property theorem in the `_Props` files and says
  "Closed under the global context" for **all** of them: no axioms, of the standard library or otherwise.  (vcheck lists
  the seven constants of `Coq.ssr.ssrunder`; these are parameters of a library module that std++ loads, no theorem
  depends on them.)  No section-less `Variable`/`Hypothesis`, no functor, no module type, no `Admitted`.
* The fidelity of the models, which were written by hand from the text of `/repo` (nothing was executed).
  Common simplifications: message ids, uuids and engine identities are natural numbers; each handler of a process runs
  to its end before the next one (as in the event loops of the code), except where a component models threads
  (`Imap_Model`, `Async_Model`'s multi_future); time is the order of events; what the network does is an explicit list of
  events, so theorems hold for all orders and losses that the environment predicate of the theorem admits; logging,
  formatting of messages, ZeroMQ, tornado and ipykernel are not modelled.
* In Sections, `Context` variables are the abstract parts (user functions, `fnmatch`, deserialisation); they become
  explicit universally quantified arguments of the theorems.

## What is modelled and what is not

| code | modelled | not modelled |
|------|----------|--------------|
| client/map.py, client/remotefunction.py | all of the partition functions, `ParallelFunction.__call__` | numpy arrays (as lists), decorators |
| client/asyncresult.py, client/futures.py, error.py | get, wait (also with return_when, C76), split, wait_interactive, timing statistics (C77), iteration, get_dict, progress, multi_future, collect_exceptions, stream_output and display_outputs (C62, C63) | joining results, how an object or a traceback is displayed |
| client/view.py | flags, temp_flags, history, dependencies, imap, targets of views, push, pull, scatter, gather, BroadcastView.map on engine namespaces (C67, C68), sync_imports (C72), ViewExecutor (C78) | run, use_dill |
| client/client.py | message bookkeeping, dispatch of replies and engine notices, purge, wait, result_status, db_query, targets, history, captured output, control requests and shutdown, wait_for_engines, how it learns of the engines (C75) | the sockets' set-up, ssh, keys, the event loop of the thread, comm messages |
| controller/task_scheduler.py, dependency.py | all handlers, all policies | monitor copies of messages, recursion limit of Python |
| controller/hub.py, heartmonitor.py | registration, heart beats, both together (C79), engine state file, task tables, the task records, result, status, connection and purge requests, db_query | shutdown |
| controller/dictdb.py, sqlitedb.py | DictDB all; SQLite queries and store (C54) | mongodb.py, table creation and migration |
| controller/broadcast_scheduler.py | all routing and coalescing | |
| serialize/ | canning and apply messages, classes (C92) | codeutil, dependents |
| engine/kernel.py, controller/dependency.py decorators | aborts, apply, dependencies | ipykernel's queues, execute |
| util.py | ReverseDict, ensure_timezone, int/str helpers used by the above, urls and addresses (C85, C86) | logging helpers, validate_url |
| engine/nanny.py | dispatch in both directions, signals, noticing the end of the engine (C58) | start-up, sockets |
| cluster/cluster.py, cluster/launcher.py | Cluster start/stop/file/from_file with local processes (C59–C61), batch scripts of PBS, SGE, Slurm, LSF (C80), commands over ssh: cluster/shellcmd.py, shellcmd_receive.py (C81), allocation of engines to hosts (C82), ClusterManager, clean_cluster_files (C83), waiting for the end of a process, stop() (C84) | other launchers (HTCondor, MPI), job submission, connection info, command lines |
| the whole: client, scheduler, engines, Hub | any number of clients, composed with message queues (C64, C65) | clients leaving, false death notices, lost messages |
| engine/app.py | heart beat monitoring (C66), addresses it connects to (C70, C85, C86) | start-up, registration, output redirection |
| controller/app.py, traitlets.py | ports, addresses, start of the broadcast tree, binds (C69, C70), connection files (C88) | command line, signals |
| client/magics.py | %px, %%px, %pxconfig, %pxresult, %autopx (C73, C74) | verbose output, progress bars |
| nbextension/handlers.py | all requests (C87) | authentication, other traits in bodies |
| controller, engine, client, launcher | names of connection files, waiting for them (C90) | other runtime files |
| _async.py | _sync wrappers (C89) | explicit X_sync methods |
| client/_joblib.py | all (C91) | batching (joblib) |
| other apps, datapub | – | all |


## Property by property

### C01 – Block scatter loses, duplicates and reorders nothing (proved)

*Modelled*: `Map_Model`: `Map.getPartition`, `RoundRobinMap.getPartition`, `joinPartitions` over `list A`, with Python's slices, strides and `ValueError` as a value (client/map.py)  
*Proof*: induction on the number of partitions, div/mod arithmetic  
*Theorems*: `C01_block_scatter_gather`  

### C02 – Block scatter is balanced (proved)

*Modelled*: `Map_Model`: `Map.getPartition`, `RoundRobinMap.getPartition`, `joinPartitions` over `list A`, with Python's slices, strides and `ValueError` as a value (client/map.py)  
*Proof*: induction on the number of partitions, div/mod arithmetic  
*Theorems*: `C02_block_sizes`, `C02_block_rejects_exactly_bad_indices`  

### C03 – Round-robin scatter/gather round trip (proved)

*Modelled*: `Map_Model`: `Map.getPartition`, `RoundRobinMap.getPartition`, `joinPartitions` over `list A`, with Python's slices, strides and `ValueError` as a value (client/map.py)  
*Proof*: induction on the number of partitions, div/mod arithmetic  
*Theorems*: `C03_round_robin_scatter_gather`  

### C04 – Parallel map equals the builtin map (proved)

*Modelled*: `Map_Model`: `ParallelFunction.__call__` – lengths, number of partitions, skipping of empty ones, the remote `list(map(f, *parts))`, reassembly (client/remotefunction.py)  
*Proof*: equality with the zip-truncated map, from C01/C03  
*Theorems*: `C04_parallel_map_is_builtin_map`, `C04_builtin_map_unique`, `C04_len_counts_items`  

### C05 – Chunk sizes in a load-balanced map respect the request (proved)

*Modelled*: `Map_Model`: `ParallelFunction.__call__` – lengths, number of partitions, skipping of empty ones, the remote `list(map(f, *parts))`, reassembly (client/remotefunction.py)  
*Proof*: equality with the zip-truncated map, from C01/C03  
*Theorems*: `C05_balanced_chunks`  

### C06 – A dependency is met exactly when documented (proved)

*Modelled*: `Dependency_Model`: class Dependency with `gset` ids (controller/dependency.py 128-215)  
*Proof*: set reasoning, monotonicity over all later histories  
*Theorems*: `C06_check_means_met`, `C06_construction`, `C06_defaults`  

### C07 – An unreachable dependency is never met later (proved)

*Modelled*: `Dependency_Model`: class Dependency with `gset` ids (controller/dependency.py 128-215)  
*Proof*: set reasoning, monotonicity over all later histories  
*Theorems*: `C07_unreachable_is_forever`, `C07_decided_when_all_finished`  

### C08 – A met dependency stays met; dict round trip preserves meaning (proved)

*Modelled*: `Dependency_Model`: class Dependency with `gset` ids (controller/dependency.py 128-215)  
*Proof*: set reasoning, monotonicity over all later histories  
*Theorems*: `C08_check_monotone`, `C08_dict_roundtrip`, `C08_reduction_harmless`  

### C09 – A task only runs where and when its constraints allow (proved)

*Modelled*: `Sched_Model`: all handlers of the task scheduler as a state transformer with a heap of Job objects and an output log; random choices and timers are part of the events; `Sched_Env` says which histories an environment can produce  
*Proof*: invariants by induction over event lists, over the mutual recursion `update_graph`/`fail_unreachable` by induction on fuel; `Sched_Witness` for the counterexamples  
*Theorems*: `C09_sends_allowed`, `C09_sends_to_registered`, `C09_blacklist`  
*Limits*: C09_sends_allowed holds in every history; the other two state their environment assumption

### C10 – The high-water mark is respected (proved)

*Modelled*: `Sched_Model`: all handlers of the task scheduler as a state transformer with a heap of Job objects and an output log; random choices and timers are part of the events; `Sched_Env` says which histories an environment can produce  
*Proof*: invariants by induction over event lists, over the mutual recursion `update_graph`/`fail_unreachable` by induction on fuel; `Sched_Witness` for the counterexamples  
*Theorems*: `C10_high_water_mark`  
*Limits*: C10_double_registration_refuted: the assumption that engines are announced properly is needed

### C11 – At most one final reply per task (proved)

*Modelled*: `Sched_Model`: all handlers of the task scheduler as a state transformer with a heap of Job objects and an output log; random choices and timers are part of the events; `Sched_Env` says which histories an environment can produce  
*Proof*: invariants by induction over event lists, over the mutual recursion `update_graph`/`fail_unreachable` by induction on fuel; `Sched_Witness` for the counterexamples  
*Theorems*: `C11_life_cycle`, `C11_at_most_one_reply`  

### C12 – Independent tasks are served first come, first served, and only wait while all engines are full (proved)

*Modelled*: `Sched_Model`: all handlers of the task scheduler as a state transformer with a heap of Job objects and an output log; random choices and timers are part of the events; `Sched_Env` says which histories an environment can produce  
*Proof*: invariants by induction over event lists, over the mutual recursion `update_graph`/`fail_unreachable` by induction on fuel; `Sched_Witness` for the counterexamples  
*Theorems*: `C12_fifo`, `C12_work_conserving`  
*Limits*: C12_fifo_refuted: FIFO fails for tasks with dependencies

### C13 – No duplicate execution (proved)

*Modelled*: `Sched_Model`: all handlers of the task scheduler as a state transformer with a heap of Job objects and an output log; random choices and timers are part of the events; `Sched_Env` says which histories an environment can produce  
*Proof*: invariants by induction over event lists, over the mutual recursion `update_graph`/`fail_unreachable` by induction on fuel; `Sched_Witness` for the counterexamples  
*Theorems*: `C13_no_duplicate_execution`  
*Limits*: C13_hwm2_refuted: fails for high-water mark 2

### C14 – Tasks are failed without being run only for a reason (proved)

*Modelled*: `Sched_Model`: all handlers of the task scheduler as a state transformer with a heap of Job objects and an output log; random choices and timers are part of the events; `Sched_Env` says which histories an environment can produce  
*Proof*: invariants by induction over event lists, over the mutual recursion `update_graph`/`fail_unreachable` by induction on fuel; `Sched_Witness` for the counterexamples  
*Theorems*: `C14_failures_justified`  
*Limits*: C14_reported_refuted: the converse (every impossible dependency is reported) is false

### C15 – Tasks stranded on a dead engine are resolved (proved)

*Modelled*: `Sched_Model`: all handlers of the task scheduler as a state transformer with a heap of Job objects and an output log; random choices and timers are part of the events; `Sched_Env` says which histories an environment can produce  
*Proof*: invariants by induction over event lists, over the mutual recursion `update_graph`/`fail_unreachable` by induction on fuel; `Sched_Witness` for the counterexamples  
*Theorems*: `C15_stranded_resolved`  

### C16 – Retries are bounded and honoured (proved)

*Modelled*: `Sched_Model`: all handlers of the task scheduler as a state transformer with a heap of Job objects and an output log; random choices and timers are part of the events; `Sched_Env` says which histories an environment can produce  
*Proof*: invariants by induction over event lists, over the mutual recursion `update_graph`/`fail_unreachable` by induction on fuel; `Sched_Witness` for the counterexamples  
*Theorems*: `C16_retries_honoured`, `C16_sends_bounded`  

### C17 – Policies choose an eligible engine; leastload chooses a least-loaded one (proved)

*Modelled*: `Chooser_Model`: the scheduling policies with the random draws as arguments, exact rationals  
*Proof*: induction on load vectors  
*Theorems*: `C17_leastload`, `C17_weighted`, `C17_simple_policies`  

### C18 – Heart failure detection is exact (proved)

*Modelled*: `Heart_Model`: beat, handle_pong, the Hub's notices (controller/heartmonitor.py)  
*Proof*: invariant relating the tables to the history of answers  
*Theorems*: `C18_dead_iff_missed`, `C18_every_beat`  

### C19 – A responsive engine is never declared dead and registers once (proved)

*Modelled*: `Heart_Model`: beat, handle_pong, the Hub's notices (controller/heartmonitor.py)  
*Proof*: invariant relating the tables to the history of answers  
*Theorems*: `C19_live`, `C19_new`, `C19_responsive`  

### C20 – In-memory task-database queries mean what their operators say (proved)

*Modelled*: `DictDB_Model` on `PyValue` (Python values, comparison, membership): filters, late-binding closures, add/update/drop/find/culling/history (controller/dictdb.py)  
*Proof*: refinement to a finite map of the last writes; invariants of counters  
*Theorems*: `C20_query_means`, `C20_keys`, `C20_total`  
*Limits*: C20_gt_refuted, C20_all_refuted, C20_equality_refuted: counterexamples for $gt, $all and plain values that are not in the last clause

### C21 – The in-memory database behaves like a map from msg_id to record (proved)

*Modelled*: `DictDB_Model` on `PyValue` (Python values, comparison, membership): filters, late-binding closures, add/update/drop/find/culling/history (controller/dictdb.py)  
*Proof*: refinement to a finite map of the last writes; invariants of counters  
*Theorems*: `C21_reads_latest`, `C21_map`, `C21_latest_unique`, `C21_failed_calls`  

### C22 – Size limits of the in-memory database (proved)

*Modelled*: `DictDB_Model` on `PyValue` (Python values, comparison, membership): filters, late-binding closures, add/update/drop/find/culling/history (controller/dictdb.py)  
*Proof*: refinement to a finite map of the last writes; invariants of counters  
*Theorems*: `C22_counter`, `C22_size_limit`, `C22_record_limit`, `C22_always_returns`, `C22_evicts_oldest`  
*Limits*: C22_small_limit_refuted, C22_hang_refuted show that the hypotheses are needed

### C23 – Object serialization round trip (proved)

*Modelled*: `Serialize_Model`: canning, buffers above a threshold, apply messages; pickle is the identity on picklable values (serialize/*.py)  
*Proof*: structural induction on values  
*Theorems*: `C23_roundtrip`, `C23_only_large_data_travel_raw`, `C23_accepts`  
*Limits*: C23_threshold_refuted, C23_set_refuted, C23_nested_memoryview_refuted: limits of the round trip

### C24 – apply message round trip (proved)

*Modelled*: `Serialize_Model`: canning, buffers above a threshold, apply messages; pickle is the identity on picklable values (serialize/*.py)  
*Proof*: structural induction on values  
*Theorems*: `C24_apply_roundtrip`  

### C25 – Broadcast reaches each target exactly once (proved)

*Modelled*: `Broadcast_Model`: the tree of broadcast schedulers with an asynchronous network (controller/broadcast_scheduler.py, app.py, engine/app.py)  
*Proof*: invariants on packets in flight for every delivery order  
*Theorems*: `C25_exactly_once`, `C25_ends`, `C25_replies`  

### C26 – Coalesced broadcast reply is complete and sent once (proved)

*Modelled*: `Broadcast_Model`: the tree of broadcast schedulers with an asynchronous network (controller/broadcast_scheduler.py, app.py, engine/app.py)  
*Proof*: invariants on packets in flight for every delivery order  
*Theorems*: `C26_at_most_one_complete`, `C26_every_target_once`, `C26_arrives`, `C26_announced_order`  
*Limits*: C26_depth2_order_refuted (announced order differs from depth 2 on), C26_threads_refuted (use_threads shares the class-level tables: no reply), C26_status_refuted (status of the last answer only), C26_no_targets_refuted show the limits

### C27 – Engine ids are unique (proved)

*Modelled*: `Hub_Model`: registration, heartbeats, saved engine state, tables of tasks, status and result requests (controller/hub.py)  
*Proof*: invariants over event lists  
*Theorems*: `C27_unique`, `C27_fresh`, `C27_granted`  
*Limits*: C27_second_restart_refuted: two restarts with no engine coming or leaving in between make the Hub grant the id of a restored engine; C27_pending_grant_refuted: ids granted to engines that never completed registration are granted again after a restart

### C28 – Hub task bookkeeping is a partition (proved)

*Modelled*: `Hub_Model`: registration, heartbeats, saved engine state, tables of tasks, status and result requests (controller/hub.py)  
*Proof*: invariants over event lists  
*Theorems*: `C28_life`, `C28_start`, `C28_partition`, `C28_done`, `C28_queue`, `C28_completed_once`, `C28_lists`, `C28_lists_new`, `C28_unassigned`  
*Limits*: histories are plausible_history (message numbers used once, results answer requests, no engine takes over the uuid or id of one that left, no restart); C28_id_reuse_refuted, C28_retry_refuted, C28_late_result_dropped show the limits

### C29 – result_status tells the truth about each task (proved)

*Modelled*: `Hub_Model`: registration, heartbeats, saved engine state, tables of tasks, status and result requests (controller/hub.py)  
*Proof*: invariants over event lists  
*Theorems*: `C29_status`, `C29_results`, `C29_stored`, `C29_true`, `C29_restarted`  
*Limits*: C29_restart_two_refuted: after a restart a request for several messages reports the status of the last record for all; C29_restart_status_refuted; C29_purged_refuted

### C30 – Iterating an AsyncMapResult gives the same items as get() (proved)

*Modelled*: `Async_Model`: get, iterators, progress, get_dict, multi_future, collect_exceptions (client/asyncresult.py, client/futures.py, error.py)  
*Proof*: list induction; all orders of arrival  
*Theorems*: `C30_ordered`, `C30_ready`, `C30_return_exceptions`, `C30_unordered`, `C30_arrival_order`, `C30_map`, `C30_first_error`  
*Limits*: C30_rr_refuted: ordered iteration of a round-robin map before everything is there is in task order, not in get()'s order; C30_aborted_refuted: a map with an aborted task never becomes ready; C30_arg_refuted: get(return_exceptions=True) on a map made without it raises TypeError

### C31 – Errors from several engines are all reported (proved)

*Modelled*: `Async_Model`: get, iterators, progress, get_dict, multi_future, collect_exceptions (client/asyncresult.py, client/futures.py, error.py)  
*Proof*: list induction; all orders of arrival  
*Theorems*: `C31_all_reported`, `C31_failures_exist`, `C31_return_exceptions`, `C31_single`, `C31_iteration`  
*Limits*: C31_composite_refuted, C31_aborted_refuted show the limits

### C32 – imap yields each result once, in order, with bounded outstanding work (proved)

*Modelled*: `Imap_Model`: the threads of `imap` as an interleaving of atomic steps (client/view.py)  
*Proof*: inductive invariant; a measure for termination  
*Theorems*: `C32_ordered`, `C32_unordered`, `C32_complete`, `C32_cancel`, `C32_errors`, `C32_values`, `C32_max_outstanding`, `C32_no_deadlock`, `C32_ends`, `C32_delivers`  
*Limits*: C32_input_error_refuted: the future made for an exception of the argument iterator has a get() without keyword arguments, so TypeError comes out; C32_error_recorded_refuted: after an error the map stays in _outstanding_maps and Executor.shutdown waits forever

### C33 – Temporary view flags are restored (proved)

*Modelled*: `View_Model`: flags, temp_flags, save_ids/spin, history arithmetic, the dependency arguments (client/view.py)  
*Proof*: case analysis over bodies that raise or return; induction on nesting  
*Theorems*: `C33_restored`, `C33_body`, `C33_invariant`, `C33_not_entered`  
*Limits*: C33_failed_entry_refuted: when setting the temporary flags fails, those set before the failure stay (view.py 184 is outside the try)

### C34 – A view's history contains exactly its own messages (proved)

*Modelled*: `View_Model`: flags, temp_flags, save_ids/spin, history arithmetic, the dependency arguments (client/view.py)  
*Proof*: case analysis over bodies that raise or return; induction on nesting  
*Theorems*: `C34_recorded`, `C34_outstanding`, `C34_nested`, `C34_others`  
*Limits*: C34_no_messages_refuted, C34_twice_refuted, C34_direct_map_refuted show the limits; one thread per client

### C35 – Aborted tasks are not run (proved)

*Modelled*: `Engine_Model`: the kernel's aborted set, apply with its temporary names, dependent functions (engine/kernel.py, controller/dependency.py)  
*Proof*: invariant over message histories; user code is a parameter  
*Theorems*: `C35_aborted_not_run`, `C35_others_unaffected`, `C35_one_reply`, `C35_unique_ids`  
*Limits*: C35_stale_abort_refuted: an abort arriving after the task ran stays in the set; C35_no_ids_no_reply: an abort request without msg_ids gets no reply; ipykernel's dispatch and _abort_queues are outside the model

### C36 – Bidirectional dictionary (proved)

*Modelled*: `RDict_Model`: ReverseDict as two dictionaries (util.py)  
*Proof*: invariant: the two maps are inverse  
*Theorems*: `C36_bijection`, `C36_operations`, `C36_last_value`, `C36_both_sides`  
*Limits*: Consistency needs the histories to be free of clashes; without that it is refuted: C36_stale_refuted (reassigning a key leaves the old value pointing to it), C36_pop_refuted (two keys with one value: popping raises), C36_value_check_refuted (a value may be an existing key).

### C37 – Client bookkeeping of outstanding tasks and results (proved)

*Modelled*: `Client_Model`: the client's tables (outstanding, results, futures, ...) under sends, replies, outputs, engine deaths, purges (client/client.py)  
*Proof*: refinement to a small specification (`Client_Spec`)  
*Theorems*: `C37_client`, `C37_submitted`, `C37_outstanding`, `C37_reply`, `C37_result_final`, `C37_engine_death`, `C37_output`, `C37_settled`, `C37_wait`  
*Limits*: Refinement of the client's dictionaries to a small specification (Client_Spec). Refuted: C37_unreadable_refuted (a reply that cannot be deserialized: not outstanding, future pending for ever), C37_broadcast_refuted (a non-coalescing broadcast stays outstanding for ever), C37_duplicate_refuted (a duplicate reply raises in the handler and overwrites client.results).

### C38 – SQL and in-memory databases agree (proved)

*Modelled*: `Sqlite_Model`: rendering of a query to SQL tokens and arguments, a parser and three-valued evaluator for the SQL produced (controller/sqlitedb.py)  
*Proof*: induction on the query; agreement with DictDB where both apply  
*Theorems*: `C38_query`, `C38_agree`  
*Limits*: The SQL text is modelled as tokens, parsed by a recursive-descent parser with SQL's precedences, three-valued logic and positional parameters. The property as first written is refuted: C38_ne_null_refuted ($ne/$nin do not find NULL), C38_empty_refuted (the empty query and $in [] are syntax errors), C38_timezone_refuted (times in other timezones are compared as text), C38_join_refuted ($lt with a list: UnboundLocalError or, after $in, nonsense).

### C39 – Client result_status uses the local cache and reports each id once (proved)

*Modelled*: `Result_Model`: Client.result_status on Hub.get_results  
*Proof*: list induction over sorted ids and buffer streams  
*Theorems*: `C39_status`, `C39_results`, `C39_asked`, `C39_one_cached`  
*Limits*: The property as first written is refuted: C39_cache_refuted (of two cached ids one is asked of the Hub, and the call fails if the Hub lacks it), C39_twice_refuted (repeated ids are reported twice or crash), C39_aborted_refuted (an aborted task's result makes the call crash), C39_raise_refuted (errors are raised only the first time).

### C40 – db_query results are linked to the right buffers (proved)

*Modelled*: `DbQuery_Model`: Hub.db_query and Client.db_query on DictDB_Model  
*Proof*: list induction (buffers split as they were joined)  
*Theorems*: `C40_db_query`, `C40_fails`  
*Limits*: On top of the in-memory database (DictDB_Model). Conversion of dates on the way is not modelled.

### C41 – get_history lists the dated records by time (proved)

*Modelled*: `DictDB_Model` on `PyValue` (Python values, comparison, membership): filters, late-binding closures, add/update/drop/find/culling/history (controller/dictdb.py)  
*Proof*: refinement to a finite map of the last writes; invariants of counters  
*Theorems*: `C41_history`  

### C42 – A future of several futures resolves exactly when all have (proved)

*Modelled*: `Async_Model`: get, iterators, progress, get_dict, multi_future, collect_exceptions (client/asyncresult.py, client/futures.py, error.py)  
*Proof*: list induction; all orders of arrival  
*Theorems*: `C42_multi_future`, `C42_never_early`, `C42_stable`  
*Limits*: callbacks are atomic in the model

### C43 – get_dict maps each engine to its own result (proved)

*Modelled*: `Async_Model`: get, iterators, progress, get_dict, multi_future, collect_exceptions (client/asyncresult.py, client/futures.py, error.py)  
*Proof*: list induction; all orders of arrival  
*Theorems*: `C43_get_dict`, `C43_ambiguous`, `C43_errors`  

### C44 – progress and len count items (proved)

*Modelled*: `Async_Model`: get, iterators, progress, get_dict, multi_future, collect_exceptions (client/asyncresult.py, client/futures.py, error.py)  
*Proof*: list induction; all orders of arrival  
*Theorems*: `C44_progress`, `C44_monotone`, `C44_complete`  
*Limits*: C44_duplicates_refuted: repeated ids are counted once when outstanding

### C45 – The task scheduler never hangs (proved)

*Modelled*: `Sched_Term`: the recursion of `Sched_Model` terminates  
*Proof*: well-founded measure: ids not yet finished, queue length  
*Theorems*: `C45_handlers_terminate`, `C45_histories_processed`, `C45_outcome_unique`, `C45_never_stuck`  
*Limits*: the recursion depth equals the length of the chain of dependents; Python's recursion limit (RecursionError for long chains) is not modelled

### C46 – Dependency flags reach the scheduler with their meaning (proved)

*Modelled*: `View_Model`: flags, temp_flags, save_ids/spin, history arithmetic, the dependency arguments (client/view.py)  
*Proof*: case analysis over bodies that raise or return; induction on nesting  
*Theorems*: `C46_dependency_meaning`, `C46_accepted`  
*Limits*: C46_dict_refuted: dict dependencies

### C47 – Remote calls happen once, with the right arguments, and leave nothing behind (proved)

*Modelled*: `Engine_Model`: the kernel's aborted set, apply with its temporary names, dependent functions (engine/kernel.py, controller/dependency.py)  
*Proof*: invariant over message histories; user code is a parameter  
*Theorems*: `C47_call`, `C47_no_trace`, `C47_reply`, `C47_references`  
*Limits*: user code is a parameter; printed output and tracebacks are not modelled

### C48 – @depend and @require guard the execution on the engine (proved)

*Modelled*: `Engine_Model`: the kernel's aborted set, apply with its temporary names, dependent functions (engine/kernel.py, controller/dependency.py)  
*Proof*: invariant over message histories; user code is a parameter  
*Theorems*: `C48_unsatisfied`, `C48_flag`, `C48_depend`, `C48_require`  

### C49 – Targets choose the engines they name (proved)

*Modelled*: `Targets_Model`: ids, notifications, `_build_targets`, indexing of the client (client/client.py)  
*Proof*: invariant: sorted ids = keys of the engine table  
*Theorems*: `C49_ids`, `C49_targets`, `C49_views`  
*Limits*: No notification arrives during the call; with the notification thread it is refuted for 'all': C49_race_refuted (ids and uuids out of step, so results are attributed to the wrong engines). C49_gone_refuted: a view rc[:] fails for all its engines as soon as one has gone.

### C50 – get_result is about the jobs asked for (proved)

*Modelled*: `GetRes_Model`: get_result, _asyncresult_from_jobs, the constructor of AsyncResult  
*Proof*: induction on the list of jobs  
*Theorems*: `C50_list`, `C50_one`, `C50_asked_only`  
*Limits*: Limits: C50_handle_refuted (get_result of one AsyncResult of several messages gives only the first), C50_mixed_refuted (jobs known here are dropped from a list with one for the Hub), C50_awaited_refuted (a list with a finished and an awaited message raises AttributeError or KeyError).

### C51 – Results fetched from the Hub are complete and in order (proved)

*Modelled*: `GetRes_Model`: AsyncHubResult.wait on `Result_Model` (C39), the Hub being a list of states, one per poll  
*Proof*: induction on the polls, from C39_results  
*Theorems*: `C51_wait`, `C51_ready`  
*Limits*: The messages are distinct and not outstanding in this client. C51_raises_refuted: wait and ready raise the error of a task the first time it is seen, while others are pending; C51_twice_refuted: a repeated id with owner=True makes wait raise KeyError.

### C52 – Resubmitting sends each task again exactly once (proved)

*Modelled*: `Resub_Model`: Client.resubmit and Hub.resubmit_task on a list of records  
*Proof*: list reasoning, permutations  
*Theorems*: `C52_resubmit`, `C52_missing`  
*Limits*: C52_metadata_refuted: the copy has none of the original's metadata (dependencies, targets, retries, timeout); C52_twice_refuted: a repeated id fails with an error naming no task. Database failures in the middle are not modelled.

### C53 – No engine is idle while a task could run on it (proved)

*Modelled*: `Sched_Model` (as for C09-C16); vocabulary in `Sched_Idle_Spec`  
*Proof*: invariant over reachable states (`Sched_Idle_Inv`, `Sched_Idle`, `Sched_Idle_Steps`, `Sched_Idle_Top`): every waiting job is queued, and none can run on an engine whose load is 0, re-established by update_graph after each event  
*Theorems*: `C53_no_idle_engine`, `C53_plain_waits_only_when_busy`, `C53_policies`  
*Limits*: High-water mark 1 (the default). C53_after_giving_back_refuted: a task with retries left whose only engine failed it waits forever although that engine is idle, hence the exception in the statement.

### C54 – The SQLite task database keeps what it is given, across crashes (proved)

*Modelled*: `SqlStore_Model`: the calls of SQLiteDB on a table of rows by position, committed and current versions of it  
*Proof*: invariant linking the table to the latest contents (`SqlStore_Proofs`), induction on the history  
*Theorems*: `C54_contents`, `C54_latest_unique`, `C54_failed_calls`, `C54_history`, `C54_durable`  
*Limits*: SQLite itself (primary key, atomic statements, transactions undone up to the last commit by a crash) is modelled as documented, not verified. Suitable values: datetimes of one timezone, dicts only in the columns for dicts. Limits shown: C54_dict_refuted (the Hub stores the contents of execute_result and error messages in text columns, so they come back as JSON text), C54_empty_refuted, C54_missing_refuted (updating or dropping an unknown id is silently ignored, unlike in the in-memory database).

### C55 – Purging removes the asked results and never an unfinished task (proved)

*Modelled*: `Purge_Model`: the purge functions of the client and Hub.purge_results, on the databases of `DictDB_Model` and `SqlStore_Model`  
*Proof*: list reasoning, from the invariants of C21 and C54  
*Theorems*: `C55_local`, `C55_local_returns`, `C55_hub_memory`, `C55_hub_sql`, `C55_both`, `C55_asks`, `C55_everything`  
*Limits*: Purging by engine, which the documentation promises, does not work: C55_local_targets_refuted (the client compares text with bytes and forgets nothing), C55_memory_engines_refuted (the in-memory database silently removes nothing, because of C20_equality_refuted), C55_sql_engines_refuted (with SQLite it is an error unless ids are given too). C55_zero_refuted: engine 0 and history entry 0 count as nothing given. C55_none_refuted: targets=None fails after the records were removed.

### C56 – The record of a task has all that is known, in whatever order it came (proved)

*Modelled*: `Rec_Model`: the save_* handlers of the Hub on records as functions from columns, with the pending sets and queues they consult  
*Proof*: invariant between state and history, one lemma per message type (`Rec_Proofs`); order independence from the specification functions  
*Theorems*: `C56_record`, `C56_pending`, `C56_order`  
*Limits*: C56_broadcast_output_first_refuted: if an output of a broadcast comes first, add_record fails and the request is never recorded. C56_display_data_refuted: display_data is not a column, so SQLite loses it. C56_late_result_refuted: a direct result that comes after its engine was unregistered is dropped and the task recorded as failed (the comment at line 541 promises otherwise).

### C57 – The outputs of a task are captured completely, in order, and only its own (proved)

*Modelled*: `Out_Model`: the regular expression, _dispatch_iopub, the metadata objects (a heap, since AsyncResults share them) and the futures  
*Proof*: declarative meaning of carriage returns in `Out_Spec`, proved to be that of the substitution; invariant over histories (`Out_Proofs`)  
*Theorems*: `C57_carriage_returns`, `C57_captured`, `C57_done`, `C57_complete`  
*Limits*: C57_cut_refuted: the stored text depends on how it was cut (a carriage return that ends a piece is applied only when another one comes), which is why the statement speaks of what the text shows. C57_after_failure_refuted: outputs that come after a reply without engine_info (such as the one the client makes up when an engine is unregistered) go to a new metadata object that no AsyncResult has.

### C58 – Control requests reach exactly the engines meant; the end of an engine is reported once (proved)

*Modelled*: `Ctl_Model`: the nanny (its flags, the loop's callbacks, what it sends) and the client's control calls, over `Targets_Model` and `Engine_Model`  
*Proof*: trace lemma for what one event adds, invariant on the finish flag and callbacks (`Ctl_Proofs`), induction on the requests  
*Theorems*: `C58_relay`, `C58_signal_requests`, `C58_exit`, `C58_calls`, `C58_abort_named`, `C58_send_signal`, `C58_shutdown_hub`, `C58_shutdown_engines`, `C58_restart`  
*Limits*: C58_abort_nothing_refuted: abort with nothing to name (an empty list, or none outstanding) makes the engines throw away everything queued, of any client. C58_hub_spared_refuted: shutdown(hub=True) tells the Hub to stop even if an engine failed, raises and leaves the client open. C58_reply_type_refuted: the nanny's answers have type '_request' (nanny.py 156). The nanny's start-up and failures while it notifies the Hub are not modelled.

### C59 – A Cluster knows the processes it has started and stops exactly those asked for (proved)

*Modelled*: `Clu_Model`: Cluster with local launchers: processes, launcher states, waiting threads, pending callbacks, the engine sets as objects, the engines dict, the cluster file, waiting stop_engines calls  
*Proof*: one invariant over all histories (`Clu_Proofs`): every live process is owned, threads and callbacks exist for what runs, states agree with processes  
*Theorems*: `C59_known`, `C59_stop_cluster`, `C59_stop_engines`, `C59_stop_controller`, `C59_new_id`  
*Limits*: C59_reused_id_refuted: starting engines with an engine_set_id in use makes the Cluster forget the engines it had under it, and stop_cluster leaves them. C59_stale_stop_refuted: a second stop_engines call for a set that waits while the id is used again forgets the new engines. Local processes only; processes ids are not used again.

### C60 – The cluster file lists the running processes (proved)

*Modelled*: the same model; the file is rewritten or removed where cluster.py does  
*Proof*: invariant that the file covers and agrees with the live processes; from_dict restores it (`Clu_Proofs2`)  
*Theorems*: `C60_listed`, `C60_reload`, `C60_gone`  
*Limits*: C60_failed_start_refuted: a start of engines that fails half-way leaves engines that are not in the file (a Cluster made from it never stops them); C60_stale_file_refuted: and the file is then not removed when everything has ended. C60_reused_pid_refuted: from_file takes any process that has got the id of an ended one for it, and stops it. C60_gone supposes that no engine set has 0 engines and that the controller did not fail to start.

### C61 – Stop notices of engine sets and of the controller (proved)

*Modelled*: the same model; notices are recorded  
*Proof*: invariant on exit codes and members; counting of notices against starts  
*Theorems*: `C61_set_notice`, `C61_at_most_once`, `C61_all`, `C61_controller_notice`  
*Limits*: Counting is without reloads (a Cluster made from the file can notice an end that its predecessor noticed too). Sets of 0 engines never report a stop.

### C62 – stream_output shows all output of the tasks (proved)

*Modelled*: the input thread (capture, then callbacks) and the thread in stream_output (register, publish, leave), freely interleaved; the screen, or in a kernel the displays by id; `_display_stream`  
*Proof*: induction over schedules with an invariant tying registered callbacks, captured metadata and what is shown; layout by induction over the pieces  
*Theorems*: `C62_streamed`, `C62_once`, `C62_errors`, `C62_terminal`, `C62_notebook`, `C62_leave`  
*Limits*: C62_race_refuted: an output that comes between registration and publication is shown twice. C62_notebook_overwrites_refuted: in a notebook the text that engines had printed before is shown in one place, each replacing that of the one before. C62_same_request_refuted: with the same request twice a callback stays behind. C62_load_balanced_refuted: for a load-balanced view stream_output raises TypeError. Errors that came before stream_output are not shown.

### C63 – display_outputs shows all output of a result (proved)

*Modelled*: display_outputs as the list of things it shows, for any list of requests  
*Proof*: induction over the requests; for 'order' exchange of two loops up to permutation  
*Theorems*: `C63_all`, `C63_single`, `C63_order`, `C63_bad_groupby`, `C63_terminal`  
*Limits*: C63_order_refuted: with groupby='order' objects of a request that has fewer than another are not shown. C63_order_engine_refuted: if an engine ran two of the requests, those of one are shown twice and of the other never. The `wait` / KeyboardInterrupt parts of display_outputs are not modelled.

### C64 – End to end: the result of a task is that of one of its executions, final, and its end (proved)

*Modelled*: `Sys_Model`: any number of clients (each the client model on the events of that client), the scheduler model, engines with inbox/outbox and the Hub's announcements, connected by message queues; external steps (a client joins, submit, connect, die, lose the last message, timeout) and internal ones  
*Proof*: invariants relating the queues, the scheduler's trace and the history of executions (`Sys_Core`, `Sys_Hist`, `Sys_Client`); results traced back to executions through C14–C16's trace lemmas  
*Theorems*: `C64_results_deserved`, `C64_result_final`, `C64_result_ends`, `C64_outstanding`, `C64_one_at_a_time`, `C64_begins_again`, `C64_begins_again_after`, `C64_executions_bounded`  
*Limits*: The composition of the client model (C37) and the scheduler model (C09-C17) with message queues, engines and the Hub's announcements. Any number of clients, joining at any time, which may depend on each other's tasks; clients stay. C64_other_client_refuted: a dependency on a task another client has submitted before may be refused as invalid, because the scheduler has not seen that submission yet. The Hub declares dead only engines that are; the scheduler's 5 s timer for a dead engine fires when no result of it is on its way any more.

### C65 – End to end: every task gets its result unless something stands in its way (proved)

*Modelled*: the same  
*Proof*: a measure that every internal step decreases (`Sys_Measure`); a state where nothing moves has empty queues (`Sys_Live`), and then C53 (no idle engine) gives the reason for waiting; strong induction over dependencies  
*Theorems*: `C65_comes_to_rest`, `C65_can_rest`, `C65_nothing_runs`, `C65_done_or_blocked`, `C65_plain`, `C65_done_or_needs_failed`, `C65_all_done`  
*Limits*: C65_failed_dependency_refuted: a task that depends on a failed task need not be failed: with after=[failed, pending] where another task waits for the pending one, the scheduler drops it (KeyError in fail_unreachable) and it never gets a result. C65_chain_refuted: even in a chain 0 -> 1 -> 2 of single dependencies the last task can wait for ever after the first failed, because the queue is put back in the opposite order. Timeouts and message losses other than through dying engines count as steps from outside.

### C66 – An engine shuts itself down when the controller is gone, and only then (proved)

*Modelled*: _report_ping, _hb_monitor with the queue of waiting pings and the clock readings  
*Proof*: invariant relating the stored times and the counter to what has arrived since the last check; induction over histories  
*Theorems*: `C66_patient`, `C66_exact`, `C66_gone`, `C66_seen`, `C66_disabled`  
*Limits*: C66_clock_refuted: the times are read with time.time(); if the clock is set back, one check can count as missed although a ping came, which stops an engine with n = 1.

### C67 – An engine's namespace: requests of a view run in order; a pull gets what was pushed (proved)

*Modelled*: `Ns_Model`: engine namespaces as maps, _push with its temporary name, _pull, any other code as an arbitrary function on the namespace; client, channels (one per kind of view) and engines as a transition system  
*Proof*: invariant: each engine's namespace and replies are those of serial execution of what it ran, and each channel is sent = ran ++ queued; then induction over the messages between push and pull  
*Theorems*: `C67_serial`, `C67_push`, `C67_push_error`, `C67_pull`, `C67_pull_all`, `C67_push_pull`  
*Limits*: C67_tmp_refuted: pushing the name _IP_PUSH_TMP_ succeeds but the name is gone. C67_channels_refuted: a pull through another kind of view may be executed before a push that was sent before it. Only plain names are modelled (Python also accepts a.b or a[0] in push and expressions in pull).

### C68 – scatter and gather are inverse to each other; BroadcastView.map is the builtin map (proved)

*Modelled*: scatter, gather, _broadcast_map and BroadcastView.map as the messages they send, on the model of C67; partitions from the model of C01/C02  
*Proof*: each engine holds its partition when it is pulled or mapped (C67's invariant); joining by the partition lemmas of C01-C03; decimal names are distinct  
*Theorems*: `C68_scatter`, `C68_scatter_gather`, `C68_flatten`, `C68_ready`, `C68_map`, `C68_map_clean`  
*Limits*: C68_range_refuted: a scattered range or string is gathered as the list of its partitions. C68_flatten_refuted, C68_flatten_lists_refuted: with flatten, gather fails when partitions have different sizes, and concatenates items that are lists. C68_map_lengths_refuted: BroadcastView.map on sequences of different lengths combines items that do not belong together, without an error. C68_map_nothing_refuted: without sequences it fails.

### C69 – The controller's sockets get distinct ports, from the configured pools (proved)

*Modelled*: `Wire_Model`: next_port over the three pools and the system's offers (select_random_ports), init_hub's connection dicts, files of an earlier controller, the deprecated settings, port ranges  
*Proof*: invariant: the ports spent are a sub-list of pools and offers without repetition; each draw adds its result to them; a demand function for the number of random ports  
*Theorems*: `C69_distinct`, `C69_sources`, `C69_count`, `C69_own_pool`, `C69_served`, `C69_reuse`, `C69_range`, `C69_valid`  
*Limits*: As stated. Refuted, with proofs: the help says 14 ports (16 by default) are needed, 15 (18) are (C69_documented_numbers_refuted); with reuse_files and a pool `ports` the inner sockets are given the first ports of the pool again, which the files already use (C69_reuse_pool_refuted); the deprecated settings mux=(a,b) etc. put a into both pools (C69_deprecated_refuted); a random port can be one of a pool that is drawn later (C69_random_refuted); 65536 is accepted as a port (C69_last_port_refuted).

### C70 – Clients, engines and the broadcast tree are wired to each other (proved)

*Modelled*: construct_url, the recursive start of the broadcast schedulers, all binds of controller processes, the addresses clients and engines compute, next_idx of a broadcast scheduler  
*Proof*: binary numerals (format/int) are inverse; the ports bound are a permutation of the ports drawn, so C69 gives uniqueness; induction over the tree for members, connections and the route  
*Theorems*: `C70_tree`, `C70_no_clash`, `C70_channels`, `C70_registration`, `C70_route`, `C70_inner`  
*Limits*: Addresses that are not wildcards; ssh tunnels and CURVE are not modelled. Refuted for ipc: the controller joins interface and port with '-', clients and engines with ':' (C70_ipc_refuted).

### C71 – wait_for_engines ends for a reason that is true, and ends when it should (proved)

*Modelled*: `Await_Model`: wait_for_engines in three steps (look, callbacks at the engine sets, callback at the client), notices and stop callbacks by Python's positional loop over lists that change, timeouts  
*Proof*: invariant relating callback lists to the waits that go on; the positional loop with self-removal equals a skipping filter; each end of a wait traced to its event by induction over histories  
*Theorems*: `C71_known`, `C71_ready`, `C71_timeout`, `C71_gone`, `C71_stopped`, `C71_once`, `C71_deadline`, `C71_register`, `C71_first`, `C71_prompt`  
*Limits*: As stated; each notice is handled as a whole, a call in three steps. The unrestricted 'a wait returns as soon as there are n engines' is refuted in two ways: of two waits that end at the same notice the second is skipped, since the callbacks remove themselves from the list iterated over (C71_two_waits_refuted); an engine that registers between the look and the installation of the callback is not noticed (C71_window_refuted).

### C72 – sync_imports imports the same here and on the engines (proved)

*Modelled*: `Imports_Model`: view_import with the __import__ it finds and puts back, keys of requests as strings, remote_import on engines with their own modules, errors collected after the block  
*Proof*: induction over the block; keys are injective for names without ',' and ':', so the requests are the first occurrences of the imports wanted; lookups in the namespaces by induction over the imports  
*Theorems*: `C72_restored`, `C72_local`, `C72_forwarded`, `C72_which`, `C72_printed`, `C72_not_local`, `C72_engines`, `C72_raises`, `C72_same`  
*Limits*: As stated; requests run on each engine in the order of sending (C67); blocks are not nested in each other; `as` is left out (documented as ignored). The documented 'simultaneous local and remote imports' is refuted in five ways: after a function called in the block has imported something (C72_nested_refuted), or after a caught ImportError (C72_caught_refuted), later imports do not reach the engines, since __import__ is not put back; import a.b binds the name 'a.b' instead of a (C72_dotted_refuted); from a import * always fails on the engines (C72_star_refuted); an import repeated after another that bound the same name is not repeated there (C72_again_refuted).

### C73 – %px, %%px, %pxconfig and %pxresult: where code goes, what lasts, and what is shown (proved)

*Modelled*: `Magic_Model`: sessions of cells (mutually inductive commands, cells for --local), the magics of any number of views with their settings and last result, the shell's run_cell; a log of what can be seen  
*Proof*: mutual induction: the log justifies itself and determines settings and last results; explicit logs for each magic  
*Theorems*: `C73_log`, `C73_submissions`, `C73_settings`, `C73_config`, `C73_slice`, `C73_not_sent`, `C73_cell`, `C73_line`, `C73_local`, `C73_result`  
*Limits*: As stated; verbose messages, progress bars and the grouping of outputs are left out. C73_local_interrupt_refuted: Ctrl-C while %%px --local waits after the local execution sends no signal to the engines.

### C74 – %autopx: while it is on, each cell goes as a whole to the engines, and none of it runs locally (proved)

*Modelled*: the same: the hooks saved and put back by each view  
*Proof*: mutual induction: with one view the flag and the shell's hook agree; sending rules follow by computation  
*Theorems*: `C74_said`, `C74_on`, `C74_switch_off`, `C74_off`, `C74_switch_on`, `C74_invalid`  
*Limits*: For one view. C74_suffix_refuted: %autopx of a view with a suffix is not switched off by its own magic (the pattern %autopx\b does not match '%autopx_x'): that cell is sent to the engines. C74_two_views_refuted: with two views, switching both on and then off in the wrong order within a cell leaves the shell with the first view's run_cell although both are said to be off: nothing runs locally for the rest of the session.

### C75 – client.ids is the list of the Hub's engines (proved)

*Modelled*: `Conn_Model`: the Hub of `Hub_Model` (C27–C29) and the client of `Client_Model` (C37) with the connection answer, the subscription, and the queue of notices between them  
*Proof*: invariants: the client's dictionary is the answer with the handled notices applied; the Hub's is its earlier one with all notices applied; both agree on every id except those told of in the gap  
*Theorems*: `C75_ids`, `C75_up_to_date`  
*Limits*: Without a restart of the controller after the answer; messages on one socket keep their order and are not lost. C75_race_new_refuted, C75_race_dead_refuted: the client subscribes only after it has received the answer, so an engine that registers in between is never in client.ids, and one that leaves in between stays there for ever (unless the Hub tells something more of that id).

### C76 – Waiting for a part of the results (proved)

*Modelled*: AsyncResult.wait with return_when, get(FIRST_EXCEPTION), split and the loop of wait_interactive over arbitrary moments of arrival and wake-up delays  
*Proof*: a specification of what is enough and when a wait ends; induction over the rounds of the loop  
*Theorems*: `C76_wait`, `C76_first_exception`, `C76_interactive`, `C76_interactive_ends`  
*Limits*: concurrent.futures.wait is taken to behave as documented. AsyncMapResult and AsyncHubResult are left out: AsyncHubResult.wait ignores return_when and returns a bool, which get(FIRST_EXCEPTION) and wait_interactive(FIRST_...) cannot unpack. wait_interactive never raises TimeoutError although its documentation says so. C76_shape_refuted: with return_exceptions=True get(FIRST_EXCEPTION) of several tasks returns one exception instead of a list.

### C77 – Times of a parallel computation (proved)

*Modelled*: wall_time, serial_time, elapsed, timedelta over lists of task times  
*Proof*: extrema by induction; the speedup bound by counting disjoint intervals per engine  
*Theorems*: `C77_wall`, `C77_serial`, `C77_speedup`, `C77_elapsed`  
*Limits*: Times are counted in microseconds as integers (total_seconds, a float, is not modelled). C77_dead_engine_refuted: serial_time of results that are all there raises if an engine died.

### C78 – Shutting down an executor waits for what was handed to it (proved)

*Modelled*: ViewExecutor over any number of copies of the imap model, with View.wait; save_ids step by step for several threads  
*Proof*: invariants over all interleavings, reusing those of imap (C32); counterexamples by execution  
*Theorems*: `C78_shutdown`, `C78_returns`, `C78_recorded`  
*Limits*: Built on the model of imap of C32. C78_error_hangs_refuted: if the exception of a task came out of a map, shutdown(wait=True), and so the end of a with statement, never returns. C78_direct_refuted: the executor of a DirectView cannot be shut down with wait=True, it raises AttributeError (_outstanding_maps). C78_cancelled_refuted: after cancel() one more task may be sent for which shutdown does not wait. C78_threads_refuted: save_ids is not safe for threads: of two threads that submit at once a task can be missing in view.history, and is then not waited for.

### C79 – Engines of a cluster are alive, and engines that are alive join (proved)

*Modelled*: The Hub and the heart monitor composed: two processes with a queue of messages between them; the models of C27 and C18/C19 are used as they are.  
*Proof*: Invariant: replaying the messages on the way turns the hearts the Hub has been told of into the hearts the monitor knows; registered engines are among the former. The way of one engine (waiting, announced, registered) by induction over the history.  
*Theorems*: `C79_alive`, `C79_silent`, `C79_alive_unless_restarted`, `C79_granted_and_beating`, `C79_leaving_is_told`, `C79_joins`  
*Limits*: Composition of the models of the Hub (C27) and of the heart monitor (C18, C19) with the queue of messages between the two processes. C79_late_beat_refuted: if the first beat comes after registration_timeout, the engine never becomes registered, however long it answers, and does not notice (a heart is announced once, and the Hub ignores it then). C79_silence_is_for_ever_refuted: an engine that was silent for too long and answers again is not registered again. C79_dead_after_restart_refuted: an engine that died while the controller was restarted is never removed, the new heart monitor does not know it.

### C80 – Batch scripts run what was configured and ask for what was configured (proved)

*Modelled*: Batch_Spec: a lexer of the shell and a reader of directives; Batch_Model: shlex.quote, templates, insertion, formatting  
*Proof*: the lexer is run on quoted words by induction over their characters; headers are comments, by induction over lines; directives by computation for each choice of settings  
*Theorems*: `C80_quoting`, `C80_runs`, `C80_slurm_engines`, `C80_number`, `C80_one_controller`, `C80_queue`, `C80_output`, `C80_slurm_settings`, `C80_names`, `C80_interpreter`, `C80_again`  
*Limits*: Batch_Spec has a lexer of the POSIX shell (quotes, escapes, comments, words; anything that would be an expansion, a redirection, a keyword or an assignment counts as running something else) and a reader of directives. Findings: C80_output_refuted: on SGE the output file is never asked for, the line is written with the mark of PBS. C80_slurm_options_refuted: the trait options of the Slurm launchers never reaches the default script. C80_lsf_name_refuted: the LSF controller's job is named ipengine[1-1]. C80_odd_names_refuted: a program called a=b is taken for an assignment. C80_settings_are_trusted_refuted: settings are not quoted, a queue of two lines is a command. Not modelled: templates of the user, HTCondor, submission and job ids.

### C81 – Commands sent to another machine arrive as they were given, and their answers come back (proved)

*Modelled*: Remote_Model: json.dumps and json.loads, base64, the receiver on POSIX with a state of the other machine, the sender, the regular expression for the pid  
*Proof*: json: induction over values, with fuel bounded by the length of the text; base64 by arithmetic; the regular expression: a match never spans lines  
*Theorems*: `C81_encoding`, `C81_start`, `C81_running`, `C81_exists`, `C81_kill`, `C81_remove`  
*Limits*: json.dumps and json.loads (with escapes and surrogate pairs) and base64 are modelled and proved to be inverse; the regular expression that finds the pid is modelled on any text. C81_default_signal_refuted: cmd_kill without a signal (the default) always raises, the receiver calls os.kill(pid, None). C81_unfinished_line_refuted: if the shell leaves an unfinished line before the answer, the process may run although cmd_start raises. C81_surrogates_refuted: texts with surrogates may be altered. Also found by reading: the work-around for Windows without breakaway is dead code (the method is never called 'start'), and would raise KeyError (the template has json_params); ipyparallel/shellcmd.py cannot be imported (ShellCommandReceive is not a name of cluster/shellcmd.py). Not modelled: Windows, mkdir and rmdir, the debugging log.

### C82 – Engines are started on the hosts that were configured, as many as were asked for (proved)

*Modelled*: Hosts_Model: SSHEngineSetLauncher.start with the list object of ssh arguments threaded through it, parsing of addresses, remote paths  
*Proof*: the loops are shown equal to a plan per host by induction; names are injective because decimal numbers contain no slash  
*Theorems*: `C82_number`, `C82_allocation`, `C82_identifiers`, `C82_port_read`, `C82_arguments`, `C82_no_ports`, `C82_files`  
*Limits*: C82_ports_refuted: one would expect every host to be contacted on its own port; but the launchers of the engines share the list ssh_args (traitlets keeps the object), so the first port is used for all hosts after it, and their own ports are ignored. Also found by reading: _fetch_file creates directories with mode 700 decimal (0o1274: the owner may not enter it); overrides.pop('n') changes the configuration, a second start with the same launcher starts one engine for such hosts; ssh_waitpid always reports exit code -1. Not modelled: settings per host other than n and ssh_args, failures while starting.

### C83 – Clusters are found, listed and cleaned up without losing any that runs (proved)

*Modelled*: Manager_Model: load_clusters, new_cluster, remove_cluster, clean_cluster_files, from_file on a disk with the processes that exist, keys as texts  
*Proof*: an invariant over the loops of load_clusters (what is listed and what the disk became); cleaning by invariants over its loops; histories by induction  
*Theorems*: `C83_where`, `C83_listed`, `C83_kept`, `C83_complete`, `C83_default`, `C83_files`, `C83_new`, `C83_remove`, `C83_unique`, `C83_keys`, `C83_stays`, `C83_clean_running`, `C83_clean_raises`, `C83_clean_done`, `C83_clean_others`  
*Limits*: Launchers are local ones; directories are absolute and have no characters that glob interprets. Refuted beside: keys of clusters whose ids have colons may agree (C83_keys_refuted) and then a file found later replaces a cluster that runs (C83_stays_refuted); a directory named twice is loaded twice, with other cluster objects (C83_twice_refuted); a cluster found dead has no controller and is never dropped from the list, though its file is gone (C83_gone_refuted); the default cluster is not made if there is any cluster file, also a broken one, other than documented (C83_default_refuted); clean_cluster_files without a log (its default) raises AttributeError at the first stopped cluster, because reading its file removed it (C83_clean_log_refuted); when it fails, files of other profiles may be gone (C83_clean_atomic_refuted).

### C84 – A launcher notices the end of its process, once, and stop() ends the process (proved)

*Modelled*: Watch_Model: a transition system of the process, the waiting thread (_wait), the event loop and stop(), for local processes and over ssh  
*Proof*: an invariant of all runs; a measure that every step of the thread decreases once the process has ended; enabledness by cases  
*Theorems*: `C84_safe`, `C84_noticed`, `C84_not_stuck`, `C84_stop`, `C84_stop_ends`, `C84_kill`, `C84_signals`  
*Limits*: Process numbers are not used again; stop() is not called while it runs. Refuted beside: one failed poll over ssh ends the waiting thread, and the end is never announced (C84_failed_poll_refuted); a failure of the connection while stop() waits makes it raise without sending KILL (C84_stop_fails_refuted). (Over ssh the exit code is always -1, as ssh_waitpid prints a constant.)

### C85 – Clients and engines on any machine reach the controller's machine (proved)

*Modelled*: Addr_Model: split_url, is_ip, disambiguate_ip_address, disambiguate_url, the urls of Client.__init__ and of the engine; the operating system's names and addresses are fields of a machine  
*Proof*: splitting by a lemma on the first occurrence of a separator that does not overlap itself; the address by cases against an inductive choice; arrival from the uniqueness of public addresses  
*Theorems*: `C85_split`, `C85_address`, `C85_url`, `C85_client`, `C85_engine`  
*Limits*: Names and addresses of a machine do not change. Refuted beside: is_ip recognises no ip address (re.match has its arguments swapped; harmless where an address resolves to itself); two machines with the same host name: a client connects to itself.

### C86 – Connections go through ssh exactly when they should, and are encrypted for the controller (proved)

*Modelled*: Addr_Model: choice of the ssh server and keys in Client.__init__, _connect, init_connector, complete_registration  
*Proof*: by cases on the arguments, with a characterisation of 'the controller is here'  
*Theorems*: `C86_same_way`, `C86_way`, `C86_warned`, `C86_no_needless_warning`, `C86_keys`, `C86_engine`  
*Limits*: Refuted beside: a client with only an ssh key, and the file a controller without ssh server writes, tunnels through an empty server name; through ssh only the first of a client's connections carries the controller's key; an engine using ssh connects to its own nanny through the ssh server, and the nanny itself does not use ssh.

### C87 – The web service lists, creates and removes clusters faithfully (proved)

*Modelled*: Web_Model: the handlers of nbextension/handlers.py on Manager_Model, sort_key and sorted, requests that wait as two steps  
*Proof*: the order is a lexicographic product of strict total orders; sorting by permutation and uniqueness of strictly sorted lists; histories are those of the manager; an invariant while DELETE waits  
*Theorems*: `C87_list`, `C87_create`, `C87_actions`, `C87_says`, `C87_delete`, `C87_delete_answers`  
*Limits*: On the model of the manager of C83. Refuted beside: if the list is asked for after the cluster has ended and before DELETE has, DELETE answers an error although it has stopped the cluster, and removes a new cluster of the same name; a profile given as a path gets a random name even for its first cluster; a deleted nameless cluster is listed again.

### C88 – Connection files are valid for the controller that runs, also after restarts and crashes (proved)

*Modelled*: Reuse_Model: load_config_from_json, load_secondary_config, the part of init_hub that makes and writes the files as a sequence of disks, cleanup; histories with kills  
*Proof*: an invariant over all histories (files that can be read were written by a controller configured alike, and are those of the controller that is up)  
*Theorems*: `C88_fresh`, `C88_reused`, `C88_raises`, `C88_up`, `C88_again`, `C88_no_damage`, `C88_end`, `C88_ssh`  
*Limits*: One controller at a time uses the files. Refuted beside: killed while writing, every later start that reuses files raises; with CURVE and no configured key pair a controller that reuses its files has another key than they say; a packer configured for the second start is used although the files say another; the location configured for it is not used.

### C89 – A synchronous call of a coroutine method gives what the coroutine comes to (proved)

*Modelled*: Sync_Model: the lines of _in_thread and _thread_main as an interleaving transition system over a table of calls, queues of the loops, own loops; attribute access and dir over an mro  
*Proof*: an invariant that ties each caller to its coroutine and what it has done; a measure that every step decreases, and progress; an invariant of first use; induction over the mro  
*Theorems*: `C89_own`, `C89_once`, `C89_not_begun`, `C89_ends`, `C89_calm`, `C89_up`, `C89_up_since`, `C89_dir`, `C89_dir_works`, `C89_no_sync`  
*Limits*: Steps are the lines of _in_thread; what awaits what is left open (a loop may go on with any ready coroutine); own loops are run by their caller alone; termination uses that the five seconds of line 48 run out (a caller that races at first use may wait for another's event). Refuted beside: a background coroutine that ends in a cancellation or exit leaves its caller waiting for ever; a background coroutine that makes a _sync call blocks its own loop for ever; racing first calls can get AttributeError (no _thread_loop) or RuntimeError (thread started twice); coroutine classmethods can be called with _sync but are not in dir.

### C90 – Whoever is asked for a cluster reads the connection file of that cluster (proved)

*Modelled*: Find_Model: the names of the connection files as each of the four sides makes them, the loops that wait for them over files as functions of time, what a Client connects to  
*Proof*: strings are cut at the last slash; a fold over assigned ids; inductions over the waiting loops  
*Theorems*: `C90_agree`, `C90_distinct`, `C90_client_right`, `C90_client_waits`, `C90_client_soon`, `C90_engine_right`, `C90_engine_waits`, `C90_engine_told`, `C90_launcher_right`, `C90_launcher_gets`, `C90_launcher_waits`, `C90_source`  
*Limits*: Sleeps take the time they are given, the rest none; files are not removed while somebody waits. Refuted beside: Client(url_file=...) is silently ignored (a named argument, looked for in extra_args); with a slash in a cluster id two clusters can share a file; after a crash, what is read may be of the controller before; a client that comes while the file is being written fails (a launcher tries again).

### C91 – The joblib backend closes what it opened, nothing else, and calls each callback once (proved)

*Modelled*: Joblib_Model: __init__ as a program over a world of clients and clusters in which any step can fail, terminate, effective_n_jobs; sending, finishing and calling back as a transition system  
*Proof*: case analysis of the constructions that can happen; a relation between the state of a job and all that happened to it, by induction over runs  
*Theorems*: `C91_given`, `C91_ready`, `C91_cluster`, `C91_closes`, `C91_works`, `C91_waits`, `C91_closes_only`, `C91_spares`, `C91_again`, `C91_jobs`, `C91_story`, `C91_calls`, `C91_called`, `C91_comes`, `C91_goes_on`  
*Limits*: Clusters and clients are numbers that are open or not; what starting does is in C08, C61; joblib's batching is not modelled. Refuted beside: engines started for a cluster that was found are not stopped; if making the backend fails after the cluster was started or the client was made, they are left (the backend never came to be, so nobody terminates it; only the cleanup at exit does); if the client cannot be closed the cluster is not stopped; a found cluster with fewer engines than it should have is waited for for ever.

### C92 – A class of __main__ arrives with the same attributes and ancestors (proved)

*Modelled*: CanClass_Model: classes as numbers in a growing heap, with the C3 merge of type(name, bases, dict), CannedClass and its get_object as a recursion over canned classes  
*Proof*: C3 keeps the order of its lists, so orders of ancestors are parts of that of the class (invariant of heaps that can be made); a merge one of whose lists contains all others in order is that list (induction)  
*Theorems*: `C92_imported`, `C92_arrives`, `C92_get`, `C92_subclass`, `C92_others`, `C92_own`, `C92_made`, `C92_chain`, `C92_monotone`  
*Limits*: Python's own C3 order is modelled and proved to be kept by subclasses; values of attributes are taken to arrive as they are (C13 and following are about values); no metaclasses, no __slots__. Refuted beside: if ancestors are of __main__ too, each is rebuilt for each occurrence, and in a diamond the class can find another attribute than at home; a class that is sent twice is two classes.

