{"id": "C01", "title": "Block scatter loses, duplicates and reorders nothing", "statement": "Splitting a sequence of n items over q>=1 engines with the default ('b') distribution and concatenating the q partitions in engine order gives back exactly the original sequence.", "quantifier": "all element types, all sequences (any n, including n<q and n=0), all q>=1", "why_tests_cant": "The identity must hold for every pair (n,q); tests sample a handful of pairs.", "anchors": ["ipyparallel/client/map.py: Map.getPartition, Map.joinPartitions, Map.concatenate", "ipyparallel/client/view.py: DirectView.scatter, DirectView.gather"]}
{"id": "C02", "title": "Block scatter is balanced", "statement": "In a block scatter of n items over q engines every engine gets floor(n/q) or floor(n/q)+1 items, exactly the first n mod q engines get the larger share, and an engine index outside 0..q-1 is rejected with ValueError.", "quantifier": "all n, all q>=1, all engine indices (including negative and too large ones)", "why_tests_cant": "Boundary conditions depend on n mod q for unboundedly many n,q.", "anchors": ["ipyparallel/client/map.py: Map.getPartition"]}
{"id": "C03", "title": "Round-robin scatter/gather round trip", "statement": "With the 'r' distribution engine p receives exactly the items at positions p, p+q, p+2q, ... in order, and gathering the partitions restores the original sequence.", "quantifier": "all sequences, all q>=1, all engine indices", "why_tests_cant": "The interleaving reassembly must be right for every length/engine-count residue.", "anchors": ["ipyparallel/client/map.py: RoundRobinMap.getPartition, RoundRobinMap.joinPartitions, RoundRobinMap.flatten_list"]}
{"id": "C04", "title": "Parallel map equals the builtin map", "statement": "view.map(f, *seqs) collects exactly list(map(f, *seqs)): same length, same order, f applied once to each argument tuple, whatever the number of engines, the chunk size and the distribution.", "quantifier": "all functions, all non-empty families of argument sequences (equal or unequal lengths), all engine counts, all chunk sizes, both distributions", "why_tests_cant": "Equality must hold for all functions, data and partition shapes.", "anchors": ["ipyparallel/client/remotefunction.py: ParallelFunction.__call__", "ipyparallel/client/asyncresult.py: AsyncMapResult._reconstruct_result", "ipyparallel/client/map.py"]}
{"id": "C05", "title": "Chunk sizes in a load-balanced map respect the request", "statement": "A load-balanced map of n items with chunksize c>=1 sends ceil(n/c) tasks, no task is empty and no task has more than c items.", "quantifier": "all n>=1, all c>=1", "why_tests_cant": "ceil/floor interaction between number of chunks and block partition over all n,c.", "anchors": ["ipyparallel/client/remotefunction.py: ParallelFunction.__call__"]}
{"id": "C06", "title": "A dependency is met exactly when documented", "statement": "Dependency.check returns True iff the dependency is empty, or (all=True) every listed task has finished in an accepted way, or (all=False) at least one has, where 'accepted' means success and/or failure according to the flags; building one with success=failure=False is a ValueError.", "quantifier": "all sets of ids, all flag combinations, all histories of completed and failed tasks", "why_tests_cant": "Ranges over all finite sets and flag combinations.", "anchors": ["ipyparallel/controller/dependency.py: Dependency.__init__, Dependency.check"]}
{"id": "C07", "title": "An unreachable dependency is never met later", "statement": "If Dependency.unreachable says True for some history then check is False now and in every extension of that history; conversely once every listed task has finished, the dependency is either met or reported unreachable, never neither and never both.", "quantifier": "all dependencies, all histories and all their extensions (a task finishes at most once, either completed or failed)", "why_tests_cant": "Quantifies over all futures.", "anchors": ["ipyparallel/controller/dependency.py: Dependency.unreachable, Dependency.check"]}
{"id": "C08", "title": "A met dependency stays met; dict round trip preserves meaning", "statement": "check is monotone in the sets of completed and failed tasks, and rebuilding a dependency from its as_dict() form gives a dependency with the same answers on every history.", "quantifier": "all dependencies, all growing histories", "why_tests_cant": "Quantifies over all histories.", "anchors": ["ipyparallel/controller/dependency.py: Dependency.as_dict, Dependency.check"]}
{"id": "C09", "title": "A task only runs where and when its constraints allow", "statement": "Whenever the task scheduler sends a task to an engine: its 'after' dependency is met by the tasks finished so far, the engine is registered, the engine is in the task's targets (if any), the engine did not already refuse it (blacklist), and its 'follow' dependency is met on that engine.", "quantifier": "all high-water marks, all scheduling policies and random choices, all interleavings of submissions, replies, timeouts, engine registrations and deaths (registered: when the Hub announces each engine only while it is not registered; refusals: default high-water mark, engines answer each delivery once)", "why_tests_cant": "Safety over all event histories.", "anchors": ["ipyparallel/controller/task_scheduler.py: TaskScheduler.maybe_run, submit_task, update_graph, dispatch_submission"]}
{"id": "C10", "title": "The high-water mark is respected", "statement": "With hwm>0 the number of tasks the scheduler has outstanding on any one registered engine never exceeds hwm.", "quantifier": "all hwm>=1, all policies, all event histories in which an engine is announced only while it is not registered (announcing it twice breaks it: see C10_double_registration_refuted)", "why_tests_cant": "Counter invariant over all event histories.", "anchors": ["ipyparallel/controller/task_scheduler.py: TaskScheduler.available_engines, maybe_run, add_job, finish_job"]}
{"id": "C11", "title": "At most one final reply per task", "statement": "For each submitted task the scheduler delivers at most one final reply to the client, and does nothing more with the task after that.", "quantifier": "the default high-water mark (1), all policies, all event histories in which engines answer each delivery at most once, engine identities and task ids are fresh", "why_tests_cant": "Exactly-once behaviour depends on interleavings of retries, timeouts and engine death.", "anchors": ["ipyparallel/controller/task_scheduler.py: dispatch_result, handle_result, fail_unreachable, handle_stranded_tasks"]}
{"id": "C12", "title": "Independent tasks are served first come, first served, and only wait while all engines are full", "statement": "Tasks without dependencies, targets, retries and timeout are delivered to engines in the order in which they were submitted, and one of them waits only while every registered engine has hwm tasks outstanding.  (For tasks with dependencies the order is not kept: refuted.)", "quantifier": "all high-water marks, all policies that return a valid index, all event histories of independent tasks, including engine deaths", "why_tests_cant": "Order must hold for every queue content and every event history.", "anchors": ["ipyparallel/controller/task_scheduler.py: TaskScheduler.dispatch_submission, update_graph, maybe_run"]}
{"id": "C13", "title": "No duplicate execution", "statement": "A task that has been sent to an engine and has not been refused or failed there is not sent again.", "quantifier": "the default high-water mark (1; with 2 it fails: refuted), all event histories in which engines answer each delivery at most once, engine identities and task ids are fresh", "why_tests_cant": "Depends on the interleaving of graph updates and direct runs.", "anchors": ["ipyparallel/controller/task_scheduler.py: update_graph, maybe_run, submit_task"]}
{"id": "C14", "title": "Tasks are failed without being run only for a reason", "statement": "When the scheduler itself fails a task (ImpossibleDependency, InvalidDependency, TaskTimeout) there is a reason visible in the history: the task had a timeout; or it depends on itself or on an id never submitted; or, given the results so far, its 'after' or 'follow' can never be met any more; or 'follow' asks for two tasks that ran on different engines; or none of its target engines is left.  (The converse, that every impossible task is failed, is refuted.)", "quantifier": "all dependency graphs, all event histories", "why_tests_cant": "Transitive propagation over all graphs and histories.", "anchors": ["ipyparallel/controller/task_scheduler.py: update_graph, fail_unreachable, maybe_run, job_timeout, dispatch_submission, handle_unmet_dependency"]}
{"id": "C15", "title": "Tasks stranded on a dead engine are resolved", "statement": "When an engine is declared dead, every task that was outstanding on it gets, after the grace period, a failure that is either retried elsewhere or reported to the client as EngineError; none is left outstanding on the dead engine.", "quantifier": "default high-water mark; all sets of outstanding tasks, all retry budgets, all event histories in which engines answer each delivery at most once and ids are fresh", "why_tests_cant": "Crash-point property.", "anchors": ["ipyparallel/controller/task_scheduler.py: _unregister_engine, handle_stranded_tasks, dispatch_result"]}
{"id": "C16", "title": "Retries are bounded and honoured", "statement": "A task submitted with retries=r that keeps failing by error is sent at most r+1 times, and its failure is only reported after the r retries have been used.", "quantifier": "all r, all event histories", "why_tests_cant": "History property over all interleavings.", "anchors": ["ipyparallel/controller/task_scheduler.py: dispatch_result, handle_unmet_dependency"]}
{"id": "C17", "title": "Policies choose an eligible engine; leastload chooses a least-loaded one", "statement": "Every scheduling policy returns an index into the list of eligible engines; leastload returns the first engine of minimal load, lru the least recently used, twobin the less recently used of two sampled engines, weighted the less loaded of two engines sampled with probability inversely proportional to load.", "quantifier": "all non-empty load vectors, all random draws", "why_tests_cant": "All load vectors and random draws.", "anchors": ["ipyparallel/controller/task_scheduler.py: plainrandom, lru, twobin, weighted, leastload"]}
{"id": "C18", "title": "Heart failure detection is exact", "statement": "An engine is declared dead at a beat iff it has missed max_heartmonitor_misses+1 beats in a row since it last answered; one answer resets the count.", "quantifier": "all heartbeat histories, all limits", "why_tests_cant": "All infinite response patterns.", "anchors": ["ipyparallel/controller/heartmonitor.py: HeartMonitor.beat, _check_missed, handle_heart_failure, handle_pong"]}
{"id": "C19", "title": "A responsive engine is never declared dead and registers once", "statement": "An engine that answers at least once in every max+1 consecutive beats is never declared dead, is announced as new exactly once, and stays among the live hearts.", "quantifier": "all histories", "why_tests_cant": "All response patterns.", "anchors": ["ipyparallel/controller/heartmonitor.py: HeartMonitor.beat, handle_new_heart, handle_pong"]}
{"id": "C20", "title": "In-memory task-database queries mean what their operators say", "statement": "find_records on the default in-memory database returns, in storage order, exactly the records that satisfy every clause of the query, for the operators $lt, $lte, $gte, $eq, $ne, $in, $nin, $mod, $exists, $glob and for a plain value in the last clause; cut down to the requested keys. ($gt, $all and plain values followed by another clause are shown by counterexample not to mean what they say.)", "quantifier": "all record sets, all queries", "why_tests_cant": "Semantics must hold for every query and database.", "anchors": ["ipyparallel/controller/dictdb.py: filters, CompositeFilter, DictDB._match, DictDB.find_records"]}
{"id": "C21", "title": "The in-memory database behaves like a map from msg_id to record", "statement": "What get_record returns after any sequence of add/update/drop/drop_matching is the latest contents written for that id; as long as the records fit into the limits nothing is lost and KeyError means that there is no such record; a call that raises changes nothing.", "quantifier": "all operation sequences, all limits", "why_tests_cant": "Refinement over all operation sequences.", "anchors": ["ipyparallel/controller/dictdb.py: DictDB.add_record, get_record, update_record, drop_record, drop_matching_records"]}
{"id": "C22", "title": "Size limits of the in-memory database", "statement": "The byte counter always equals the total size of the buffers of the stored records and never exceeds size_limit; if every record has a submission time, every call returns and (when cull_fraction*record_limit >= 1) the number of records never exceeds record_limit; only the records submitted first are evicted.", "quantifier": "all operation sequences, all limits", "why_tests_cant": "Accounting invariant over all operation sequences.", "anchors": ["ipyparallel/controller/dictdb.py: _add_bytes, _drop_bytes, _cull_oldest, _maybe_cull"]}
{"id": "C23", "title": "Object serialization round trip", "statement": "If serialize_object(x) succeeds, with any buffer threshold and any item threshold up to the receiver's 64, deserialize_object gives back x (dicts and sets up to order) and hands back untouched any buffers that followed it; only data above the buffer threshold travel outside the pickle. (Shown by counterexample: larger item thresholds, and sets that hold several objects with large data of different kinds, do not come back.)", "quantifier": "all objects (nested lists, tuples, sets, dicts, bytes, memoryviews, arrays, functions, partials), all buffer thresholds, all trailing buffers", "why_tests_cant": "Round trip over all nested values and threshold settings.", "anchors": ["ipyparallel/serialize/serialize.py: serialize_object, deserialize_object, _extract_buffers, _restore_buffers"]}
{"id": "C24", "title": "apply message round trip", "statement": "The function, positional and keyword arguments unpacked by the engine are exactly the ones packed by the client (keyword arguments in sorted order), whatever buffers each of them needs, also for arguments serialized beforehand with PrePickled.", "quantifier": "all functions, argument lists, keyword dicts", "why_tests_cant": "Buffer bookkeeping over all argument shapes.", "anchors": ["ipyparallel/serialize/serialize.py: pack_apply_message, unpack_apply_message"]}
{"id": "C25", "title": "Broadcast reaches each target exactly once", "statement": "For a tree of broadcast schedulers of any depth, any number of concurrent broadcasts to distinct engines, and any order in which the network delivers messages: no engine gets a broadcast twice or one that is not addressed to it; the exchange ends after a bounded number of messages, and then every target has executed each broadcast once. Without coalescing, the client then has exactly one answer from each target, the one that target gave.", "quantifier": "all tree depths, all sets of broadcasts and target lists, all delivery orders", "why_tests_cant": "All depths and all subsets of engines.", "anchors": ["ipyparallel/controller/broadcast_scheduler.py: BroadcastScheduler.send_to_targets, send_to_sub_schedulers, dispatch_submission"]}
{"id": "C26", "title": "Coalesced broadcast reply is complete and sent once", "statement": "With the schedulers in separate processes, each coalesced broadcast gets at most one reply, only after every target has executed it, containing every target's buffers exactly once, in an order that depends only on the ids of the targets; when nothing is in flight any more, every broadcast with targets has got it. With the default tree depth the reply names the targets in the order of the buffers.", "quantifier": "all depths, all sets of broadcasts, all delivery orders", "why_tests_cant": "All interleavings of child replies.", "anchors": ["ipyparallel/controller/broadcast_scheduler.py: BroadcastScheduler.coalescing_reply, dispatch_result"]}
{"id": "C27", "title": "Engine ids are unique", "statement": "Engines registered, or granted a registration, at the same time never have the same id nor the same uuid; an id chosen by the Hub itself is that of no engine ever registered before, also across controller restarts that restore the saved engine state (provided an engine came or left between two restarts), and of none granted since the last restart.", "quantifier": "all histories of registrations, unregistrations, heart failures, timeouts and controller restarts", "why_tests_cant": "History and crash-point property.", "anchors": ["ipyparallel/controller/hub.py: new_engine_id, register_engine, finish_registration, _save_engine_state, _load_engine_state"]}
{"id": "C28", "title": "Hub task bookkeeping is a partition", "statement": "As told by result_status, each message goes from unknown to pending exactly at its request, from pending to done exactly at its (first) result or when the waiting time for the engine it was sent to, which has left, is over; and stays done. queue_status of a registered engine lists exactly the pending messages sent to it, each message it completed (in order, once, and in no other engine's list), and the tasks assigned to it.", "quantifier": "all interleavings of requests, results, task destinations, registrations, unregistrations, engine deaths, timers, purges and resubmissions in which message numbers are not reused and no engine takes over the id or uuid of one that left", "why_tests_cant": "All interleavings.", "anchors": ["ipyparallel/controller/hub.py: save_queue_request, save_queue_result, save_task_request, save_task_result, save_task_destination, _handle_stranded_msgs"]}
{"id": "C29", "title": "result_status tells the truth about each task", "statement": "The answer of the Hub to a status or result request for any list of messages names each once, in order, as pending or completed according to its status, or names one that is not known; the results given are those that arrived for these messages; engine died is reported only for messages sent to an engine that left. After a restart, a request for a single message gives what the database has.", "quantifier": "all request lists, all histories", "why_tests_cant": "All mixes of statuses in one request.", "anchors": ["ipyparallel/controller/hub.py: Hub.get_results"]}
{"id": "C30", "title": "Iterating an AsyncMapResult gives the same items as get()", "statement": "get() of a map gives the results of the builtin map; iterating over it gives exactly the same items (block distribution, or everything there already), whether or not the results were there when the iteration started; unordered iteration gives the items of each task once, together and in order, a permutation of get()'s, in order of completion if the consumer keeps up; with return_exceptions both give the flat list with exceptions in place; if a task failed, ordered iteration gives the items of the tasks before it and then its error.", "quantifier": "all distributions, chunkings, completion orders and paces of the consumer, all mixes of results and errors", "why_tests_cant": "All completion orders and all mixes of results and errors.", "anchors": ["ipyparallel/client/asyncresult.py: AsyncMapResult._reconstruct_result, _ordered_iter, _unordered_iter"]}
{"id": "C31", "title": "Errors from several engines are all reported", "statement": "get() of a call on several engines raises iff an engine sent an error, and the CompositeError lists every error exactly once in engine order; otherwise all results in order. With return_exceptions nothing is raised; a single-engine call raises the engine's error itself; iteration yields the results before the first error, then raises it. (Shown by counterexample: errors called CompositeError are not flattened; aborted tasks are returned as values.)", "quantifier": "all result lists", "why_tests_cant": "All mixes of results and errors.", "anchors": ["ipyparallel/error.py: collect_exceptions", "ipyparallel/client/asyncresult.py: AsyncResult._collect_exceptions, _resolve_result"]}
{"id": "C32", "title": "imap yields each result once, in order, with bounded outstanding work", "statement": "LoadBalancedView.imap yields f(x) for each input exactly once, in input order if ordered=True, each after its result arrived; with max_outstanding > 0 never more than that many tasks are sent and unfinished; it cannot hang, and with finitely many inputs it ends having yielded everything; after cancel() at most one more input is taken and what was taken is still yielded; an exception that comes out is that of a failed task (never with return_exceptions), all earlier results having been yielded if ordered. (Shown by counterexample: an exception of the argument iterator comes out as TypeError; an imap ended by an error stays recorded as outstanding.)", "quantifier": "all input streams (also infinite), all outcomes, all max_outstanding, all interleavings of the consumer thread, the result thread, the iterating thread and cancel()", "why_tests_cant": "All interleavings of four threads.", "anchors": ["ipyparallel/client/view.py: LoadBalancedView.imap"]}
{"id": "C33", "title": "Temporary view flags are restored", "statement": "Once the body of view.temp_flags(...) has been entered, the view has all its flags back afterwards whether the body returns or raises or changes flags itself; the body ran with the given flags (others unchanged), and what escapes is exactly what the body raised. Setting a flag never leaves a value of the wrong type. (Shown by counterexample: if entering fails half way, flags already set stay set.)", "quantifier": "all flag settings, all bodies", "why_tests_cant": "Every exit path.", "anchors": ["ipyparallel/client/view.py: View.temp_flags, View.set_flags, LoadBalancedView.set_flags"]}
{"id": "C34", "title": "A view's history contains exactly its own messages", "statement": "A call on a view that sends at least one message, and uses no other recording method of the same view, appends exactly the messages it sent to view.history, also when it raises, and view.outstanding then consists of the unanswered ones of the old and the new messages. With nested recording methods everything sent is recorded, and (if every recording call sends something) nothing else; views not used are not affected. (Shown by counterexample: a call that sends nothing records the whole history of the client; LoadBalancedView.map and gather record twice; DirectView.map records nothing.)", "quantifier": "all calls (including calls that submit nothing), all nesting", "why_tests_cant": "Depends on counts including zero.", "anchors": ["ipyparallel/client/view.py: save_ids, View.spin"]}
{"id": "C35", "title": "Aborted tasks are not run", "statement": "On an engine, a request whose id was named by an abort request, no request with that id having arrived since, is not executed (nothing of it runs, the namespace is untouched) and gets exactly one reply, 'aborted'; every other request is treated exactly as if nothing had ever been aborted, and gets exactly one reply, 'ok' or 'error'. So if ids are not reused a request is refused iff an earlier abort request names it. (Shown by counterexample: an abort which comes too late is remembered and refuses a retry of the task under the same id.)", "quantifier": "all histories of requests, aborts and clears, all user code", "why_tests_cant": "All interleavings.", "anchors": ["ipyparallel/engine/kernel.py: IPythonParallelKernel.should_handle, abort_request, _abort_queues"]}
{"id": "C36", "title": "Bidirectional dictionary", "statement": "As long as no two entries share a key or a value and nothing is both a key and a value, a ReverseDict can be read in both directions and holds exactly the entries set and not popped; no assignment raises, and popping raises KeyError exactly for absent keys, changing nothing. In any history at all, a key that has been assigned reads as the value assigned last until it is popped or reassigned, and assigning a key that is a value of an entry raises KeyError and changes nothing.", "quantifier": "all sequences of assignments and pops, over any type of keys", "why_tests_cant": "Refinement over all operation sequences.", "anchors": ["ipyparallel/util.py: ReverseDict"]}
{"id": "C37", "title": "Client bookkeeping of outstanding tasks and results", "statement": "A submitted task is outstanding until the first of: its first reply, the death (unregistration) of an engine it was sent to by name; then never again. Its future is resolved with the content of the first reply, or EngineError, and never changes after that, whatever duplicates arrive. The death of an engine fails at once exactly the outstanding tasks sent to it and completes their outputs. If all replies can be deserialized, a task is outstanding exactly while its future is pending, and Client.wait(ids) returns True at once iff none of the ids is outstanding, and otherwise waits for futures that are all done exactly when none is outstanding.", "quantifier": "all interleavings of submissions, broadcasts (coalescing or not), replies (also duplicated or unreadable), output messages, engines registering and dying (in any order of Python's set enumeration), and purges", "why_tests_cant": "All interleavings.", "anchors": ["ipyparallel/client/client.py: Client._send, _handle_apply_reply, _handle_stranded_msgs, wait"]}
{"id": "C38", "title": "SQL and in-memory databases agree", "statement": "A query to the SQLite task database made of ==, $eq, $ne (also with None), $lt, $gt, $lte, $gte, $glob, and $in/$nin with a nonempty list without None, returns exactly the records that satisfy it, in the table's order, if all times are in one timezone - except that a record without a value in a field satisfies only comparisons with None there. The WHERE clause generated is well formed, with parameters in the order of their placeholders. On queries both support, the answer is that of the in-memory database.", "quantifier": "all such queries, all tables, every rendering of times that follows the order of local time", "why_tests_cant": "All queries.", "anchors": ["ipyparallel/controller/sqlitedb.py: SQLiteDB._render_expression, find_records"]}
{"id": "C39", "title": "Client result_status uses the local cache and reports each id once", "statement": "Client.result_status names every id asked about exactly once, as pending only if it is pending in the Hub and as completed only if its result is in the client's cache or the Hub. Without status_only, if the stored results can be read and the cache agrees with the Hub, each completed id comes with its own result, the client's cache holds every completed result afterwards and nothing else changes; an exception is raised only if one of the results is an error. The answer depends only on the Hub's record of ids which have no cached result or come right after an id answered from the cache; one cached id is answered without the Hub.", "quantifier": "all lists of ids without repetition, all caches, all states of the Hub that know the ids, all ways of deserializing", "why_tests_cant": "All lists/caches.", "anchors": ["ipyparallel/client/client.py: Client.result_status"]}
{"id": "C40", "title": "db_query results are linked to the right buffers", "statement": "Client.db_query returns one record for each stored record that matches, in the database's order, with the requested keys (and msg_id) unchanged; 'buffers' and 'result_buffers' are there exactly if requested by name, and are exactly the lists stored with that record (empty if None); no buffer is left over. It raises exactly if the database query does.", "quantifier": "all databases, queries and key lists, records with arbitrary numbers of buffers", "why_tests_cant": "All shapes.", "anchors": ["ipyparallel/controller/hub.py: Hub.db_query", "ipyparallel/client/client.py: Client.db_query"]}
{"id": "C41", "title": "get_history lists the dated records by time", "statement": "get_history of the in-memory database lists each stored record that has a submission time exactly once, ordered by submission time.", "quantifier": "all operation sequences", "why_tests_cant": "Sorting over every content of the database.", "anchors": ["ipyparallel/controller/dictdb.py: DictDB.get_history"]}
{"id": "C42", "title": "A future of several futures resolves exactly when all have", "statement": "The future that an AsyncResult waits on is resolved iff all of its tasks have results, with the results in submission order, whatever the order of arrival relative to the registration of its callbacks; it never resolves early and never changes.", "quantifier": "all lists of children (also with repetitions), all interleavings of arrivals and callback registrations", "why_tests_cant": "All interleavings.", "anchors": ["ipyparallel/client/futures.py: multi_future", "ipyparallel/client/asyncresult.py: AsyncResult._init_futures"]}
{"id": "C43", "title": "get_dict maps each engine to its own result", "statement": "AsyncResult.get_dict returns exactly one entry per engine with that engine's result; if an engine has several results it raises ValueError naming such an engine and its number of results; errors are raised as by get().", "quantifier": "all lists of engines and results", "why_tests_cant": "All shapes.", "anchors": ["ipyparallel/client/asyncresult.py: AsyncResult.get_dict"]}
{"id": "C44", "title": "progress and len count items", "statement": "len(ar) is the number of items of all tasks, ar.progress the number of items of the tasks no longer outstanding: it never decreases while tasks finish, and equals len exactly when none is outstanding.", "quantifier": "all task lists without repetitions, chunk sizes and sets of outstanding tasks", "why_tests_cant": "All states.", "anchors": ["ipyparallel/client/asyncresult.py: AsyncResult.__len__, progress"]}
{"id": "C45", "title": "The task scheduler never hangs", "statement": "In any state, handling any event (submission, result, engine coming or leaving, timer) ends with one well-defined outcome: failing a task, which fails or releases the tasks depending on it, which ... cannot go on forever, whatever the dependency graph looks like. Every history is processed to its end.", "quantifier": "all states (reachable or not), all events, all histories, all high-water marks and schemes", "why_tests_cant": "Termination of a mutual recursion over arbitrary dependency graphs.", "anchors": ["ipyparallel/controller/task_scheduler.py: TaskScheduler.update_graph, fail_unreachable, maybe_run, handle_stranded_tasks"]}
{"id": "C46", "title": "Dependency flags reach the scheduler with their meaning", "statement": "Every value that set_flags accepts for after/follow (None, a message id, an AsyncResult, a Dependency, or a collection of ids and AsyncResults, and only these) reaches the scheduler as a dependency that is met in exactly the histories the documentation says. (Shown by counterexample: the dict form is refused with KeyError, or loses its flags.)", "quantifier": "all dependency values, all histories", "why_tests_cant": "All nested shapes of values.", "anchors": ["ipyparallel/client/view.py: LoadBalancedView._validate_dependency, _render_dependency, set_flags", "ipyparallel/controller/dependency.py: Dependency.__init__, as_dict", "ipyparallel/controller/task_scheduler.py: dispatch_submission"]}
{"id": "C47", "title": "Remote calls happen once, with the right arguments, and leave nothing behind", "statement": "An apply request calls the function at most once, with the unpacked arguments (References replaced by the values the names have on the engine), in the engine's namespace; afterwards the four temporary names are gone and every other name is as the function left it, also when it raises. It gets exactly one reply: 'ok' with the value returned, or 'error' with the exception of the unpacking, of the function (also SystemExit) or of the serialization of the result.", "quantifier": "all requests, namespaces and user code", "why_tests_cant": "Arbitrary user code and namespaces.", "anchors": ["ipyparallel/engine/kernel.py: IPythonParallelKernel.apply_request, do_apply", "ipyparallel/serialize/canning.py: uncan, Reference", "ipyparallel/serialize/serialize.py: unpack_apply_message"]}
{"id": "C48", "title": "@depend and @require guard the execution on the engine", "statement": "The check of @depend is made once, on the engine, before the function; if it returns False or raises, or if a module of @require cannot be imported there, the function is not called and the reply is that error. The reply says 'dependencies not met' exactly when the error is UnmetDependency. A function under @require is only called after all its modules were imported and with all required objects bound.", "quantifier": "all requests, check functions, lists of modules and objects, namespaces", "why_tests_cant": "Arbitrary user code.", "anchors": ["ipyparallel/controller/dependency.py: depend, dependent, require, _require", "ipyparallel/serialize/canning.py: _uncan_dependent_hook, CannedObject.get_object", "ipyparallel/engine/kernel.py: finish_metadata, do_apply"]}
{"id": "C49", "title": "Targets choose the engines they name", "statement": "client.ids lists the registered engines in increasing order. None and 'all' (in any capitals) choose all of them; an integer chooses the engine with that id, a negative one counts from the end of client.ids (IndexError if there is none); a slice chooses by position in client.ids as Python slices do; a list chooses its elements in order (KeyError if one is not registered); anything else is a TypeError; with no engines, NoEnginesRegistered. Each id comes with the uuid it was last registered with. A view made from a slice, id or list sends to the same ids ever after or raises if one has gone; a view of 'all' uses the engines there are at each call.", "quantifier": "all histories of registrations and unregistrations, all targets, all slices", "why_tests_cant": "All histories and targets.", "anchors": ["ipyparallel/client/client.py: Client._build_targets, _update_engines, _unregister_engine, direct_view, ids", "ipyparallel/client/view.py: DirectView._really_apply"]}
{"id": "C50", "title": "get_result is about the jobs asked for", "statement": "client.get_result with a list of history indices (negative ones from the end), message ids and AsyncResults that all come from one place (all awaited by this client, or all finished here, or none known here) returns one result object for exactly the messages the jobs stand for, in the order of the jobs; from the Hub only in the third case. One index or id gives the result of that message, no argument the last one. Whatever is asked, the result object is only about messages asked for, in order, and a local one for a list is about all of them.", "quantifier": "all histories, all tables of the client, all lists of jobs", "why_tests_cant": "All combinations of jobs and states.", "anchors": ["ipyparallel/client/client.py: Client.get_result, _asyncresult_from_jobs", "ipyparallel/client/asyncresult.py: AsyncResult.__init__, _init_futures"]}
{"id": "C51", "title": "Results fetched from the Hub are complete and in order", "statement": "Waiting for an AsyncHubResult says ready only when every message was finished, and then the result has each message's value in the order of the messages, or all their errors in that order; if it says not ready, a message was still pending when the Hub was last asked. It raises nothing but errors of these messages that the client did not have before, each once. The owner's cached results are removed, nothing else in the cache is lost; a ready result never changes.", "quantifier": "all sequences of states of the Hub in which results stay what they are, all caches, timeouts and sets of distinct messages", "why_tests_cant": "All schedules of completions and polls.", "anchors": ["ipyparallel/client/asyncresult.py: AsyncHubResult.wait", "ipyparallel/client/client.py: Client.result_status"]}
{"id": "C52", "title": "Resubmitting sends each task again exactly once", "statement": "client.resubmit of distinct tasks known to the Hub sends each of them again exactly once, with the kind, content and buffers of the original, under a new id; the returned result is for the new ids in the order asked; the Hub has a record of each copy and the original's record names it; no other record changes. If one is unknown nothing is sent, nothing changes and the error names exactly those missing.", "quantifier": "all databases, all lists of distinct ids", "why_tests_cant": "All databases and requests.", "anchors": ["ipyparallel/client/client.py: Client.resubmit", "ipyparallel/controller/hub.py: Hub.resubmit_task"]}
{"id": "C53", "title": "No engine is idle while a task could run on it", "statement": "With the default high-water mark of one task per engine: whenever a task is waiting in the task scheduler and a registered engine has no task, the task may not be run on that engine at that moment (a task it comes after has not succeeded yet, it follows tasks that ran elsewhere or not at all, it asked for other engines), or that engine has already handed it back (failed attempt with retries left, or an unmet functional dependency). In particular a task without restrictions waits only while every registered engine is working. This holds for every scheduling policy that picks one of the engines offered, which the five policies do.", "quantifier": "all histories of submissions (with dependencies of the default kind, on tasks submitted before, and targets announced before), results, refusals, retries, engines coming and dying, and timeouts; all policies", "why_tests_cant": "A single missed wake-up shows only in some interleavings of completions, arrivals and departures.", "anchors": ["ipyparallel/controller/task_scheduler.py: TaskScheduler.dispatch_submission, maybe_run, update_graph, handle_unmet_dependency, handle_result, _register_engine, _unregister_engine, handle_stranded_tasks, save_unmet"]}
{"id": "C54", "title": "The SQLite task database keeps what it is given, across crashes", "statement": "After any history of adding, updating and dropping records, commits, closings and crashes, asking the SQLite task database for an id returns exactly the latest contents of that record, with a value (possibly None) for every column, and KeyError means that there is no such record. A crash undoes exactly the calls since the last commit, entirely; what was committed once is never lost by a later crash. A call that raises (adding an id that is there, updating nothing or an unknown column) changes nothing. get_history lists every id once, ordered by submission time. This needs values that suit their columns: a dict stored in a text column comes back as its JSON text, and an empty list of buffers as None.", "quantifier": "all histories of calls, commits, closings and crashes; all records and queries with suitable values", "why_tests_cant": "Crash points and histories of unbounded length; a wrong column position or a lost update shows only for some sequences.", "anchors": ["ipyparallel/controller/sqlitedb.py: SQLiteDB.add_record, get_record, update_record, drop_record, drop_matching_records, get_history, _init_db, close, _list_to_dict, _dict_to_list, _adapt_dict, _adapt_bufs, _convert_dict, _convert_bufs"]}
{"id": "C55", "title": "Purging removes the asked results and never an unfinished task", "statement": "Purging results removes exactly what was asked for. In the client, purge_local_results either raises and changes nothing, or forgets exactly the messages named by the jobs (ids, indices into the history, AsyncResults), none of which was outstanding; 'all' needs that nothing is outstanding. At the Hub, purging ids is refused as a whole, naming a pending one, if any of them is pending, and removes exactly these records otherwise; purging 'all' removes exactly the records of finished tasks. Engines given in addition remove only records of finished tasks of these engines: with SQLite all of them up to the first engine that is not registered, with the in-memory database none. If the client refuses, the Hub is not asked.", "quantifier": "all jobs and targets, all states of the client, all histories of both databases, all sets of pending tasks", "why_tests_cant": "A wrongly dropped record is lost for good and shows only later, for some sets of jobs and states.", "anchors": ["ipyparallel/client/client.py: Client.purge_local_results, purge_hub_results, purge_results, purge_everything, _msg_ids_from_jobs, _msg_ids_from_target", "ipyparallel/controller/hub.py: Hub.purge_results", "ipyparallel/controller/dictdb.py: DictDB.drop_matching_records", "ipyparallel/controller/sqlitedb.py: SQLiteDB.drop_matching_records"]}
{"id": "C56", "title": "The record of a task has all that is known, in whatever order it came", "statement": "The Hub has a record of a task as soon as anything is known about it, and at any time the record holds, column by column: the request as it was sent (also one that the Hub itself resubmitted, and the id of the task that repeats this one); the engine named last by the request, the scheduler or the result; of the results, the first one for tasks and broadcasts and the last one for direct requests (or the engine's death, if it was given up first); all text printed, in the order of arrival; and the last error, input and result. Outputs may come before the request, between, or after the result: the record is the same however they are interleaved with the rest (for broadcasts: if they come after the request). A task is pending exactly as long as its record has no completion date.", "quantifier": "all histories of requests, destinations, results, outputs, resubmissions, registrations and engine deaths that respect the order of each channel; databases with fixed and with free columns", "why_tests_cant": "Outputs travel on a channel of their own, and only some interleavings with the requests lose something.", "anchors": ["ipyparallel/controller/hub.py: empty_record, init_record, Hub.save_queue_request, save_queue_result, save_broadcast_request, save_broadcast_result, save_task_request, save_task_result, save_task_destination, monitor_iopub_message, save_iopub_message, _handle_stranded_msgs, resubmit_task"]}
{"id": "C57", "title": "The outputs of a task are captured completely, in order, and only its own", "statement": "The stdout, stderr, outputs, error, execute_input, execute_result and data of an AsyncResult hold, at any time, exactly what the engines published for this request of this client: all text in the order of arrival, up to carriage returns (of each line, what follows the last carriage return that does not end it; text without carriage returns is kept exactly), all displayed objects in order, the last error, input and result, and the last value for each datum. Messages of other clients or other requests change nothing. The output future is resolved by the idle message or by a reply that means that no output will come, not before; if the engine sends nothing after that, then wait_for_output means that nothing is missing, although the client forgets the task once both its futures are done.", "quantifier": "all histories of requests, outputs, replies and cleaning up, of any number of clients and tasks; all texts, cut in any way", "why_tests_cant": "Any cutting of the text into messages and any interleaving with replies; a lost piece shows only for some.", "anchors": ["ipyparallel/client/client.py: _cr_pat, Client._dispatch_iopub, create_message_futures, _send (cleanup), _handle_execute_reply, _handle_apply_reply", "ipyparallel/client/asyncresult.py: AsyncResult._metadata, wait_for_output"]}
{"id": "C58", "title": "Control requests reach exactly the engines meant; the end of an engine is reported once", "statement": "Client.send_signal, clear and abort send one request to each engine the targets name (as often as it is named) and to no other; if the targets cannot be resolved, or a job is neither an id nor an AsyncResult, nothing is sent and the error is raised; abort names exactly the ids of the jobs given, in order (all outstanding ones if none are given), and the engines then refuse exactly those in addition, provided at least one is named. A blocking call returns normally just if all answers were good and otherwise raises the first error. A blocking send_signal, through the nanny processes, gives the right signal to each target process exactly as often as it is named if it returns normally; if it raises then some target did not get it; other processes get none. Client.shutdown with hub=True asks every engine once whatever the targets, asks the Hub after all have answered, and closes the client just if all agreed; without hub it asks exactly the targets and touches neither Hub nor client; with restart=True it refuses and does nothing. The nanny passes every other readable control message to its engine and every message of the engine to the clients, unchanged and in order, answers each signal request once, to its sender, truly; and tells the Hub of the end of its engine exactly once, however often and in whichever way the end is noticed.", "quantifier": "for every set of registered engines, targets, jobs, answers (good, bad, missing), system refusals, and every sequence of events at every nanny", "why_tests_cant": "the two ways of noticing the end race with each other and with messages; the calls must be right for every mix of answers of every number of engines", "anchors": ["ipyparallel/engine/nanny.py: KernelNanny.dispatch_control, dispatch_parent, signal_request, finish, pipe_handler, wait_for_parent_thread", "ipyparallel/client/client.py: _send_control_request, send_signal, clear, abort, shutdown", "ipyparallel/engine/kernel.py: abort_request"]}
{"id": "C59", "title": "A Cluster knows the processes it has started and stops exactly those asked for", "statement": "As long as engines are started under ids that are not in use (as the ids the Cluster makes itself are), every live process a Cluster has started is its controller or belongs to exactly one of its engine sets. stop_cluster either leaves no process alive, whatever happens by itself afterwards, and when it has returned the Cluster knows of no controller and no engines and its file is gone; or it raises an exception, only if some process survived a KILL. stop_engines(id) raises KeyError and changes nothing if there is no such set; otherwise it ends exactly the processes of this set and then the set alone is forgotten, or it raises TimeoutError, only if a process of this set survived a KILL; stop_controller likewise ends the controller's process and no other. All this also holds of a Cluster made with from_file in a later Python process, if the file was kept and no start of engines failed.", "quantifier": "for every history of starting (any number of engines, with failures), stopping, processes ending, their ends being noticed, callbacks, interleaved stop calls and reloads; every set of unkillable processes", "why_tests_cant": "the ends of processes are noticed by threads and handled by callbacks in any order, between any two calls", "anchors": ["ipyparallel/cluster/cluster.py: start_controller, start_engines, stop_controller, stop_engines, stop_cluster, _new_engine_set_id, from_dict", "ipyparallel/cluster/launcher.py: LocalProcessLauncher.stop, join, LocalEngineSetLauncher.start, stop, _notice_engine_stopped"]}
{"id": "C60", "title": "The cluster file lists the running processes", "statement": "If no start of engines failed and the ids were not in use, then at all times every live process of the cluster is in the cluster file, as controller or in the engine set where it belongs, and only there. Cluster.from_file in another Python process gives a Cluster with the same live processes, each where it was. When all processes have ended, and this has been noticed, the cluster file is gone.", "quantifier": "for every history as in C59 with the cluster file kept, any number of reloads", "why_tests_cant": "the file must be right after every prefix of every history, since the writing process may go away at any point", "anchors": ["ipyparallel/cluster/cluster.py: update_cluster_file, write_cluster_file, remove_cluster_file, to_dict, from_dict, from_file, _is_running", "ipyparallel/cluster/launcher.py: LocalEngineSetLauncher.to_dict, from_dict, LocalProcessLauncher.from_dict"]}
{"id": "C61", "title": "Stop notices of engine sets and of the controller", "statement": "There is a stop notice of an engine set just when its last engine has been found ended: all its processes have ended, one exit code is recorded for each of its engines, it is that of the process, and the set's exit code is the first recorded one that is not 0 (or, if there is none, the first known one); afterwards the set does not change. There are never more notices for an id than engine sets were started with it, and exactly as many once all their engines have ended and this has been noticed. A stop notice of the controller means that its process has ended, and gives its exit code.", "quantifier": "for every history as in C59 and every assignment of exit codes to processes", "why_tests_cant": "the ends are noticed in any order by threads, by polling and by stop calls, each of which could report twice or not at all", "anchors": ["ipyparallel/cluster/launcher.py: notify_stop, on_stop, LocalProcessLauncher._wait_thread, poll, LocalEngineSetLauncher._notice_engine_stopped", "ipyparallel/cluster/cluster.py: _controller_stopped, _engines_stopped"]}
{"id": "C62", "title": "stream_output shows all output of the tasks", "statement": "While a `with ar.stream_output():` statement runs, for each request of ar (of a DirectView) there is shown on a terminal, in this order: what comes while the request is being set up, everything that has been captured of it before (text as captured, displayed objects, the result), and everything that comes afterwards, in the order in which it comes; so, if nothing comes in the moment of set-up, each output is shown exactly once. Errors are shown as they come. Text on a terminal stands under the header of its stream and engine, and headers stand on lines of their own. In a notebook each stream from which something has come is shown in full. After the with statement nothing more is shown, and no callbacks are left behind.", "quantifier": "for every number of requests, every output they had before, every sequence of outputs of any requests, and every interleaving of the input thread with the thread that runs stream_output", "why_tests_cant": "the two threads interleave freely; whether an output is lost, shown twice or shown after the end depends on the moment of its arrival", "anchors": ["client/asyncresult.py:AsyncResult.stream_output", "client/asyncresult.py:AsyncResult._iopub_streaming_output_callback", "client/asyncresult.py:AsyncResult._display_stream", "client/client.py:Client._dispatch_iopub"]}
{"id": "C63", "title": "display_outputs shows all output of a result", "statement": "display_outputs(groupby='type' or 'engine') prints, for each stream of each engine, all the text of its requests in the order of the requests, under its header; in IPython it shows all displayed objects, each with its engine, in order, and the results. With result_only it shows just the results. groupby='order' shows every displayed object exactly once if each engine ran one request and all have the same number of them. The output of the result of one request is shown without headers. Any other groupby raises ValueError and shows nothing (unless it is the result of one request).", "quantifier": "for every list of requests with any text, displayed objects and results, every groupby, in IPython and outside", "why_tests_cant": "losing or repeating an output depends on the combination of engines, numbers of outputs and grouping", "anchors": ["client/asyncresult.py:AsyncResult.display_outputs", "client/asyncresult.py:AsyncResult._display_stream", "client/asyncresult.py:AsyncResult._display_single_result"]}
{"id": "C64", "title": "End to end: the result of a task is that of one of its executions, final, and its end", "statement": "For tasks that any number of clients submit through load-balanced views, whatever happens to the engines: the value the client sees is one that an engine's execution of the task returned; an exception it sees was raised by an execution of the task (or an EngineError names an engine that died with the task, or TaskAborted an engine that aborted it), and then the task failed on 1 + retries different engines; an error of the scheduler has a cause that can be seen (a dependency finished the wrong way, the tasks to follow ended on different engines, no engine asked for is left, a dependency of the same client was not submitted before, or one of another client had not reached the scheduler; the timeout). The result never changes, and each client waits for exactly its own tasks that have no result yet. Once it is there, the task is not running or queued anywhere and never begins again. At no time two engines execute the same task, an engine executes one task at a time and no task twice, a second execution begins only when the first has failed or its engine is dead, and executions number at most 1 + retries + the number of times the task itself refused to run.", "quantifier": "for every load-balancing policy, any number of clients joining at any time, every sequence of submissions with any targets, retries, dependencies (also on other clients' tasks) and timeouts, every engine arriving, dying, failing, refusing or aborting at any time, every delay of every message between client, scheduler, engines and Hub", "why_tests_cant": "it is a claim about all interleavings of five kinds of processes and their message queues; tests see a few of them", "anchors": ["client/client.py:Client._handle_apply_reply", "client/client.py:Client._unregister_engine", "controller/task_scheduler.py:TaskScheduler.dispatch_result", "controller/task_scheduler.py:TaskScheduler.handle_stranded_tasks", "controller/task_scheduler.py:TaskScheduler.maybe_run", "controller/hub.py:Hub.unregister_engine", "engine/kernel.py:IPythonParallelKernel"]}
{"id": "C65", "title": "End to end: every task gets its result unless something stands in its way", "statement": "Left alone, the clients, scheduler and engines come to rest after finitely many steps, whatever happens in whatever order. Then nothing is running; and every task (with dependencies of the default kind on earlier tasks of the same client or tasks that have reached the scheduler, and targets the scheduler knows) has its result, or for each living engine there is a reason: a task it comes after has not succeeded, other engines were asked for, a task it follows did not succeed there, or that engine gave the task back. A task without dependencies and targets has its result if some living engine did not give it back. If some engine lives on which nothing went wrong and no task asks for particular engines, every task has its result except those that depend, perhaps through others, on a failed one; without failures every task has succeeded.", "quantifier": "for every load-balancing policy, any number of clients joining at any time, every sequence of submissions, and every history of engines arriving, dying, failing, refusing and aborting with every delay of every message", "why_tests_cant": "liveness needs all schedules: a test cannot show that no order of events leaves a task waiting for ever", "anchors": ["controller/task_scheduler.py:TaskScheduler.update_graph", "controller/task_scheduler.py:TaskScheduler.dispatch_result", "controller/task_scheduler.py:TaskScheduler.handle_stranded_tasks", "controller/task_scheduler.py:TaskScheduler._register_engine", "client/client.py:Client.wait"]}
{"id": "C66", "title": "An engine shuts itself down when the controller is gone, and only then", "statement": "An engine with max_heartbeat_misses = n > 0 asks to be unregistered and stops only at a check for which, as for the n - 1 checks before it, no ping of the controller has come since the check before; pings that have come but were not handled yet (the engine was busy) count, and the first check never counts as missed. If the clock goes on between its readings the engine stops exactly then; so when no ping comes any more, the (n+1)-th check from then on at the latest stops it. With n = 0 it never stops by itself. It asks to be unregistered exactly once.", "quantifier": "for every n and every sequence of arriving pings, times of handling them and checks, with every reading of a clock that is not set back", "why_tests_cant": "the outcome depends on the interleaving of pings, their handling and checks over arbitrarily long times", "anchors": ["engine/app.py:IPEngine._hb_monitor", "engine/app.py:IPEngine._report_ping", "engine/app.py:IPEngine.start_heartbeat"]}
{"id": "C67", "title": "An engine's namespace: requests of a view run in order; a pull gets what was pushed", "statement": "For every engine there is an order of the messages sent to it, respecting the order of sending on each channel, such that its namespace and all replies are those of executing them one after the other; nothing sent to one engine shows on another. push sets exactly the given names (whatever temporary names exist) and leaves no other trace; if one of the names is not a name, those before it are set, those after it are not and the reply is an error. pull returns the value of the name and changes nothing. Hence a pull gets the value of an earlier push on the same channel unless something sent between them or through another kind of view touches the name. (Names beginning with _IP_PUSH_TMP_ are excepted.)", "quantifier": "for every namespace, every set of names and values, every history of messages from any views, every order of execution and every engine death", "why_tests_cant": "the namespaces persist over arbitrarily long histories, and messages on different channels interleave freely", "anchors": ["client/view.py:DirectView.push", "client/view.py:DirectView.pull", "util.py:_push", "util.py:_pull"]}
{"id": "C68", "title": "scatter and gather are inverse to each other; BroadcastView.map is the builtin map", "statement": "For a list or tuple, gather after scatter with the same distribution on the same targets returns the list of the same items in the same order, for block and round robin distribution, any number of engines and items; with flatten this holds if there are as many items as engines and the first item is not itself a list or tuple. BroadcastView.map on sequences of equal length returns the list that the builtin map returns, or raises an exception that the function raises on one of the rows; afterwards none of the temporary variables is left on the engines, even if the function raised. The result is there as soon as the engines have executed the messages.", "quantifier": "for every sequence, target list without repetition, distribution, function, and every history of other messages that leave the variable alone", "why_tests_cant": "quantifies over sizes of sequences and target lists and over interleavings with other messages", "anchors": ["client/view.py:DirectView.scatter", "client/view.py:DirectView.gather", "client/view.py:BroadcastView.map", "client/view.py:BroadcastView._broadcast_map", "client/map.py:Map.joinPartitions"]}
{"id": "C69", "title": "The controller's sockets get distinct ports, from the configured pools", "statement": "For every depth of the broadcast tree and all configured pools (engine_ports, client_ports, ports), distinct and not offered by the system as random ones, the controller's sockets get pairwise different ports, none chosen before by the process; exactly 12 + 3\u00b72^depth ports are used; each side takes ports from its own pool first, in order (a pool as large as the side's need is all that is used there), then from the common pool, and random ports only when that is used up, exactly as many as are missing. With the files of an earlier controller (reuse_files) the ports are kept, and distinct if the files' ports are neither in the common pool nor offered. It never fails while ports are offered. Ranges include both ends.", "quantifier": "for every depth, every configuration of the three pools, every sequence of ports offered by the operating system", "why_tests_cant": "the number of sockets grows with the depth, and collisions depend on which random ports the system offers", "anchors": ["controller/app.py:IPController.next_port", "controller/app.py:IPController.init_hub", "util.py:select_random_ports", "traitlets.py:PortList"]}
{"id": "C70", "title": "Clients, engines and the broadcast tree are wired to each other", "statement": "For every depth, transport (but ipc) and addresses: every chosen port is bound, and two sockets bound to one port are the same socket of the same process; the address at which a client (an engine), knowing only its connection file, connects for control, mux, task, iopub and registration is bound by exactly the process for it, on its side for clients (engines); the broadcast schedulers are the 2^(depth+1)-1 places of the binary tree, each but the root connected to its parent and to no other; and a broadcast message for an engine, entering at the client's broadcast address, arrives after depth hops at the one leaf that listens where that engine has connected.", "quantifier": "for every depth of the tree, every engine id, every address, every assignment of ports by C69", "why_tests_cant": "the tree has unboundedly many places, and each agreement is between programs that only share a file of numbers", "anchors": ["controller/app.py:IPController.launch_broadcast_schedulers", "controller/app.py:IPController.init_schedulers", "controller/app.py:IPController.construct_url", "controller/broadcast_scheduler.py:BroadcastScheduler.start", "engine/app.py:IPEngine.complete_registration", "client/client.py:Client.__init__"]}
{"id": "C71", "title": "wait_for_engines ends for a reason that is true, and ends when it should", "statement": "For every interleaving of any number of waits (wait_for_engines(n, timeout)) with engines registering and unregistering, engine sets stopping and timeouts: the client's engines are those whose last notice was a registration; a wait returns only if during it there were n engines; it raises TimeoutError only if the timeout passed with fewer engines; EngineError only if an engine unregistered during the wait or an engine set of the cluster stopped; it ends once; with a timeout it has ended when that has passed. When an engine registers, exactly those waits with enough engines return whose predecessor among the waits, if called, did not end; the oldest wait always. If it is the only wait and nothing happens between its first look and its installation, it goes on only as long as there are fewer than n engines, none has gone, no set has stopped and the timeout has not passed.", "quantifier": "for every number of waits and engine sets and every interleaving of calls, notices, stops and timeouts", "why_tests_cant": "notices arrive in another thread at any point of the call, and callbacks change the list that is iterated over", "anchors": ["client/client.py:Client.wait_for_engines", "client/client.py:Client._register_engine", "client/client.py:Client._unregister_engine", "cluster/launcher.py:BaseLauncher.notify_stop"]}
{"id": "C72", "title": "sync_imports imports the same here and on the engines", "statement": "For every with view.sync_imports() block of imports (in its frame or in called functions, within try or not, ending normally or with an exception): when it is left, __import__ is the original; locally the block has the same effect and exception as without; the engines are asked to do, each once and in the order of the block, exactly those absolute imports of the block's own frame whose module loads, up to the first import in another frame or failed import that was caught; each engine then does for plain names what Python's import statement does; an exception after the block is raised if and only if one of these fails on some engine, and it is that of the first; if none is, and no name is imported twice from different places, every engine has all the block's names bound to what is imported there, and no other name changed. With quiet nothing is printed, else what is sent. local=False sends nothing.", "quantifier": "for every block, every set of modules here and on each engine, every number of engines", "why_tests_cant": "blocks are arbitrary programs, and what an engine can import is independent of the client", "anchors": ["client/view.py:DirectView.sync_imports"]}
{"id": "C73", "title": "%px, %%px, %pxconfig and %pxresult: where code goes, what lasts, and what is shown", "statement": "In every session (any cells with any magics of any number of views; code that fails, is refused or interrupted): %px and %%px send their code once, to the engines given with --targets or else those configured for that view ('a:b' being positions among the engines there are), and nothing if the targets cannot be evaluated or the view refuses. When blocking (given, else configured) the result is waited for and its outputs shown also when it failed, unless they were streamed; an interrupt sends the signal given or configured to exactly the engines of that submission; otherwise the AsyncResult is returned at once. --out stores the submission just made. --local sends first, then runs the cell in the shell, then waits. Whatever happens, --targets and the other options do not last: a view's settings are those last given with its %pxconfig, which sets all that is given, or nothing if the targets are bad. %pxresult takes the last submission of its view, and is a UsageError if and only if there was none.", "quantifier": "for every session of cells and magics of any number of views, all options, all outcomes of submissions and of waiting", "why_tests_cant": "state kept across cells (targets, last result) depends on the whole session, including errors and interrupts", "anchors": ["client/magics.py:ParallelMagics.parallel_execute", "client/magics.py:ParallelMagics.cell_px", "client/magics.py:ParallelMagics.pxconfig", "client/magics.py:ParallelMagics.result", "client/magics.py:ParallelMagics.px"]}
{"id": "C74", "title": "%autopx: while it is on, each cell goes as a whole to the engines, and none of it runs locally", "statement": "In every session where one view switches %autopx (inside cells, conditionally after errors, in --local cells): while it is on, every cell that can be compiled is sent once, as a whole, to the targets of the view and no part of it runs in the shell, exceptions are shown and the mode stays on; a cell that begins with %autopx switches it off and does nothing else; while it is off, code runs in the shell and is not sent. The mode is always what was said last ('%autopx enabled', '%autopx disabled').", "quantifier": "for every session of cells, views and outcomes", "why_tests_cant": "it patches the shell's methods and puts them back: what runs where depends on the order of all switches", "anchors": ["client/magics.py:ParallelMagics.autopx", "client/magics.py:ParallelMagics._enable_autopx", "client/magics.py:ParallelMagics._disable_autopx", "client/magics.py:ParallelMagics.pxrun_cell", "client/magics.py:ParallelMagics.pxrun_nodes"]}
{"id": "C75", "title": "client.ids is the list of the Hub's engines", "statement": "Let the Hub answer a client's connection request at some moment and the client's subscription to the Hub's notices take effect at some later one, with anything happening at the Hub (registrations, deaths, stalled registrations, requests, results) and at the client (sending, replies, purges) before, in between and afterwards. At any later time client.ids is strictly increasing and lists exactly the engines the client can address, and the client knows (ids and uuids) exactly the engines the Hub had at a moment such that the notices told since then are those the client has still to handle; so when all are handled it knows exactly the Hub's engines. The only exception are engines that come or go between answer and subscription: of those the client knows what was in the answer until the Hub tells something more of the same id.", "quantifier": "for every interleaving of events at the Hub and at the client", "why_tests_cant": "the race between answer, subscription and notices cannot be steered in a test", "anchors": ["client/client.py:Client._connect", "client/client.py:Client._update_engines", "client/client.py:Client._register_engine", "client/client.py:Client._unregister_engine", "client/client.py:Client.ids", "controller/hub.py:Hub.connection_request", "controller/hub.py:Hub.finish_registration", "controller/hub.py:Hub.unregister_engine"]}
{"id": "C76", "title": "Waiting for a part of the results", "statement": "AsyncResult.wait(return_when=...) says of every result whether it is there when the call goes on, and goes on only when all of them, one of them, or one failed one is there (as asked) or the time is over. get(return_when=FIRST_EXCEPTION) is get() if all results are there; else it raises (or returns, if exceptions are to be returned) the very exception of a task that has failed; TimeoutError comes only after the timeout and only if no task that is there has failed; and it goes on as soon as a task has failed. wait_interactive returns only if all results, or enough of them, are there or the time is over, at most one wake-up after there is enough and at most an interval after the timeout, with the bar showing the progress of that moment, and it does return.", "quantifier": "for every number of tasks, every outcome and moment of arrival, timeout, interval and delay of the waiting thread, and every order in which the set of finished results is enumerated", "why_tests_cant": "the moments of arrival relative to the wake-ups of the waiting thread, and the order of a set, cannot be enumerated", "anchors": ["client/asyncresult.py:AsyncResult.wait", "client/asyncresult.py:AsyncResult.get", "client/asyncresult.py:AsyncResult.split", "client/asyncresult.py:AsyncResult.wait_interactive"]}
{"id": "C77", "title": "Times of a parallel computation", "statement": "wall_time is the time from the earliest submission to the latest result; serial_time is the sum of the times the engines worked on the tasks, and raises exactly if some task has no start or end (its engine died, or it never ran); elapsed, before the results are there, is the time since the earliest submission, afterwards wall_time, and does not go back in between. If the clocks agree and every engine executes one task at a time, serial_time is at most wall_time times the number of engines.", "quantifier": "for all non-empty collections of tasks with any times", "why_tests_cant": "speedup bound and extrema over arbitrary collections of times", "anchors": ["client/asyncresult.py:AsyncResult.timedelta", "client/asyncresult.py:AsyncResult.wall_time", "client/asyncresult.py:AsyncResult.serial_time", "client/asyncresult.py:AsyncResult.elapsed", "util.py:compare_datetimes"]}
{"id": "C78", "title": "Shutting down an executor waits for what was handed to it", "statement": "When view.executor.shutdown(wait=True) of a load-balanced view has returned, every task handed to submit() before the call has its result, and of every map() begun before the call and not cancelled all inputs have been taken, up to the end or an exception of its arguments, and all their tasks have their results. It does return when no task is without result and no input is left to take, whether or not anybody iterates over the maps, unless an exception came out of a map. A task sent by one of several threads is among those waited for if the client sent nothing between that call's count of the messages and its copy of their ids.", "quantifier": "for every number of submitted tasks and maps (with any arguments, also infinite), every outcome, and every interleaving of the threads of the maps, results, users iterating or cancelling, and the call of shutdown", "why_tests_cant": "interleavings of the consumer threads of the maps, the thread that receives results and the call of shutdown cannot be enumerated", "anchors": ["client/view.py:ViewExecutor.submit", "client/view.py:ViewExecutor.map", "client/view.py:ViewExecutor.shutdown", "client/view.py:LoadBalancedView.imap", "client/view.py:View.wait", "client/view.py:save_ids", "client/client.py:Client.wait"]}
{"id": "C79", "title": "Engines of a cluster are alive, and engines that are alive join", "statement": "Once the Hub has handled what the heart monitor sent, every engine that registered since the controller was started has answered one of the last max_heartmonitor_misses+1 pings or has left; before that, the message that reports it is on its way. Only engines that were granted an id and whose heart beat are registered, and an engine that is no longer registered has been reported as gone. An engine with a new uuid that is granted an id, answers pings and never misses more than max_heartmonitor_misses of them in a row is registered under this id, if it does not leave, the controller is not restarted, and its first beat reaches the Hub before the time limit for its registration has passed.", "quantifier": "for every limit, every history of requests, answers to pings (in time, late, or missing), beats, time-outs, messages handled by the Hub at any time, engines coming and leaving, and restarts of the controller (with an engine coming or leaving between any two of them)", "why_tests_cant": "the Hub and the heart monitor are two processes, and interleavings of beats, messages, timers and requests cannot be enumerated", "anchors": ["controller/hub.py:Hub.register_engine", "controller/hub.py:Hub.heartmonitor_message", "controller/hub.py:Hub.handle_new_heart", "controller/hub.py:Hub.handle_stopped_heart", "controller/hub.py:Hub._purge_stalled_registration", "controller/hub.py:Hub._load_engine_state", "controller/heartmonitor.py:HeartMonitor.beat"]}
{"id": "C80", "title": "Batch scripts run what was configured and ask for what was configured", "statement": "The script that a launcher for PBS, SGE, Slurm or LSF writes from its default template runs exactly one command: the configured program with exactly its arguments, whatever characters these contain (for the engines of Slurm: srun with these as its arguments), if the program's name is not a word that the shell takes for an assignment or a keyword, and the settings are single lines. It asks the batch system for as many engines as were requested, once (for a controller: one), for the queue if and only if one was given, for the output file that was given (PBS, Slurm, LSF), for the account, quality of service and time limit that were given (Slurm), and names the job after the controller or the engines (PBS, SGE, Slurm); it names the shell as its interpreter. Starting again with another number gives the script of that number. A joined command line, as shown or passed to a shell, is read back as the same words.", "quantifier": "for every program, arguments (any characters: quotes, newlines, dollars, empty words, hashes), queue, file, cluster id, account, time limit and number of engines, on each of the four systems, controller and engines", "why_tests_cant": "what a shell makes of a text depends on every character of it, and a test of a script compares it with an expected text for a few arguments", "anchors": ["cluster/launcher.py:BatchSystemLauncher.write_batch_script", "cluster/launcher.py:BatchSystemLauncher._insert_options_in_script", "cluster/launcher.py:BatchSystemLauncher._insert_job_array_in_script", "cluster/launcher.py:SlurmLauncher._insert_options_in_script", "cluster/launcher.py:LSFLauncher", "cluster/launcher.py:SGELauncher", "cluster/launcher.py:PBSLauncher", "util.py:shlex_join"]}
{"id": "C81", "title": "Commands sent to another machine arrive as they were given, and their answers come back", "statement": "What ShellCommandSend sends (command line, environment, paths, pids, signals) is read on the other machine as exactly what was given, whatever characters it contains, and is transmitted in characters that neither a shell nor a string literal of Python treats specially. cmd_start starts exactly one process: with exactly the given words, the environment of the other machine with exactly the given changes (null and the empty text unset a variable), its output in the given file, and returns this process's pid, even if the remote shell prints other lines before and after. cmd_running and cmd_exists answer what is the case; cmd_kill with a signal sends it once to that process, cmd_remove removes that file and no other; both raise if there is none.", "quantifier": "for every command line, environment, path (all characters but lone surrogates), pid and signal, every state of the other machine, and all lines printed by its shell around the answer that do not themselves look like the answer", "why_tests_cant": "the quoting rules of shells, of json and of Python compose, and the texts that may pass through them cannot be enumerated", "anchors": ["cluster/shellcmd.py:_encode", "cluster/shellcmd.py:ShellCommandSend._cmd_send", "cluster/shellcmd.py:ShellCommandSend._get_pid", "cluster/shellcmd.py:ShellCommandSend.cmd_start", "cluster/shellcmd.py:ShellCommandSend.cmd_running", "cluster/shellcmd.py:ShellCommandSend.cmd_kill", "cluster/shellcmd_receive.py:ShellCommandReceivePosix", "cluster/shellcmd_receive.py:ShellCommandReceiveBase._prepare_cmd_start"]}
{"id": "C82", "title": "Engines are started on the hosts that were configured, as many as were asked for", "statement": "Starting n engines over ssh starts the smaller of n and the number of configured slots. The hosts are filled in the order of the configuration: a host gets engines only after those before it are full. Every engine runs at the user and host its entry names ([user@]host[:port]), the engines of a set have different identifiers, and exactly the first engine of each entry sends the connection files, to the same place relative to the home directory (the same absolute place outside of it; the configured remote directory if there is one). An engine whose entry has its own ssh arguments is started with them and the port of the entry. The others are started with the configured arguments and the port of the first entry that has one, up to their own; if no entry has a port, with exactly the configured arguments.", "quantifier": "for every configuration of hosts (users, ports, counts also zero and negative, settings per host), every number of engines, and every profile and home directory", "why_tests_cant": "configurations are unbounded, and the effect of one host's port on others shows only in combinations of hosts", "anchors": ["cluster/launcher.py:SSHEngineSetLauncher.start", "cluster/launcher.py:SSHLauncher.start", "cluster/launcher.py:SSHLauncher._strip_home", "cluster/launcher.py:SSHLauncher.remote_connection_files", "cluster/launcher.py:SSHEngineLauncher._to_send_default"]}
{"id": "C83", "title": "Clusters are found, listed and cleaned up without losing any that runs", "statement": "Loading clusters looks in the directories that are named (in the documented order of priority), lists a cluster for every file there that can be read, with exactly the components of which there is a process, keeps every cluster object that has not stopped (running, or not started yet) under its key unless a file with the same key is found elsewhere, drops those that have stopped, and (on request) adds a stopped default cluster for a directory without cluster files. It changes only files that it reads, to what is left of the processes, and never removes the file of a cluster of which there is a process. Through any history of calls, processes and files that come and go, every cluster is listed once, under the key of its profile and id; a cluster that has not stopped whenever clusters are loaded, and whose key no other file has, stays listed as the same object until it is removed by name. Keys of clusters of different profiles or ids differ if the ids have no colon. A new cluster never takes the place of another. Cleaning up without force never removes the file of a cluster of which there is a process and, with a log, fails exactly if there is one; when it returns, no cluster file, connection file or log that can be removed is left in the directories; all other files stay as they are.", "quantifier": "for every set of files and directories, every content of cluster files, every set of processes that exist, and every history of a manager", "why_tests_cant": "the outcome depends on what files say, which processes exist and on previous calls, in unbounded combinations", "anchors": ["cluster/cluster.py:ClusterManager", "cluster/cluster.py:clean_cluster_files", "cluster/cluster.py:Cluster.from_file", "cluster/cluster.py:Cluster.from_dict", "cluster/cluster.py:Cluster.update_cluster_file", "util.py:abbreviate_profile_dir"]}
{"id": "C84", "title": "A launcher notices the end of its process, once, and stop() ends the process", "statement": "The end of the process of a launcher is announced (stop callbacks, state) at most once and only after the process has ended; until then the launcher counts as running. Once the process has ended, its end is announced after at most three more steps of the waiting thread and one of the event loop, and something can always go on until then, unless a poll over ssh fails. stop() returns only after the process has ended, takes at most three steps after its first signal, and never waits for something that cannot happen; KILL is sent only after waiting for the effect of TERM has timed out, and no signal is sent after the end was announced.", "quantifier": "for every interleaving of the process, the waiting thread, the event loop and stop(), polls with old answers, and signals that fail or are ignored; for local processes and over ssh", "why_tests_cant": "the interleavings of a thread, an event loop and a remote process are unbounded", "anchors": ["cluster/launcher.py:LocalProcessLauncher._wait", "cluster/launcher.py:LocalProcessLauncher.stop", "cluster/launcher.py:LocalProcessLauncher.join", "cluster/launcher.py:SSHLauncher._wait", "cluster/launcher.py:SSHLauncher.wait_one", "cluster/launcher.py:SSHLauncher.join", "cluster/launcher.py:ssh_waitpid"]}
{"id": "C85", "title": "Clients and engines on any machine reach the controller's machine", "statement": "Given the connection file of a controller that listens on all interfaces or on a public address, every connection of a client or engine, on the controller's machine or any other for which the file's location means the controller's machine, is made to the file's transport and port, and to an address that arrives at the controller's machine: the loopback address on that machine, what the location resolves to elsewhere. Explicit addresses and urls that are not transport://address:port are used as they are; splitting a url gives exactly its parts; disambiguating twice is disambiguating once.", "quantifier": "for every network of machines, every machine of client and engine, every interface, location, port and url", "why_tests_cant": "tests run on one machine only", "anchors": ["util.py:split_url", "util.py:is_ip", "util.py:ip_for_host", "util.py:disambiguate_ip_address", "util.py:disambiguate_url", "client/client.py:Client.__init__", "engine/app.py:IPEngine.load_connection_file", "engine/app.py:IPEngine.complete_registration"]}
{"id": "C86", "title": "Connections go through ssh exactly when they should, and are encrypted for the controller", "statement": "All connections of a client go the same way: through the ssh server given to the client, if one is given; else directly if the controller is on this machine, and through the ssh server of the connection file, if it names one, otherwise; with a key or password and a file without the field ssh, through the address itself. A client that connects directly to its own machine although the controller is elsewhere warns, and it does not warn if the controller is here, the address is not the loopback address, or a server was given. Direct connections are all encrypted for the controller's key if the file, or else the environment, has one. The same holds of engines without a nanny, through ssh as well.", "quantifier": "for every machine, connection file, and combination of arguments", "why_tests_cant": "the combinations of files, arguments and machines are too many, and need several machines", "anchors": ["client/client.py:Client.__init__", "client/client.py:Client._connect", "util.py:connect", "engine/app.py:IPEngine.init_connector", "engine/app.py:IPEngine.complete_registration", "engine/nanny.py:KernelNanny"]}
{"id": "C87", "title": "The web service lists, creates and removes clusters faithfully", "statement": "GET /clusters answers every cluster of the manager exactly once: running ones first, then those of the default profile, then nameless ones, then by profile and name, which determines the answer; GET of each listed id finds it. POST /clusters makes the cluster that was asked for (directory of the profile, or the profile itself if it is a path; the name given, none for the first cluster of a profile, a random one otherwise), not started, and changes nothing else; it fails iff there is a cluster of that name, changing nothing. Requests for one cluster answer 404 iff there is no such cluster, and 400 iff there is one and n is not a number; what is said of a cluster (profile, name, whether it runs) is true of it. Whatever happens while DELETE stops a cluster, in the end there is none of that name; if the list was not asked for and no other DELETE of the name ended meanwhile, it succeeds, and removes the cluster that it stopped and no other. It answers an error, and changes nothing, iff the cluster is gone by then.", "quantifier": "for every history of requests and of changes of clusters, processes and files, and every interleaving of DELETE with other requests", "why_tests_cant": "histories and interleavings are unbounded", "anchors": ["nbextension/handlers.py:ClusterListHandler.get", "nbextension/handlers.py:ClusterListHandler.post", "nbextension/handlers.py:ClusterActionHandler", "nbextension/handlers.py:ClusterHandler.cluster_model"]}
{"id": "C88", "title": "Connection files are valid for the controller that runs, also after restarts and crashes", "statement": "Whenever a controller is up, both connection files are there, and clients and engines that read them have its signing key, message format, CURVE key, location and ports; so in every history of controllers configured alike (same format, CURVE key and location), with or without reusing files, killed at any moment of their start or later. A controller started again with reuse_files while both files are whole and agree leaves them as they are, and has the key and the ports of the one before, so that its clients and engines need not read them again. A start raises iff it is to reuse a damaged file, which only a kill in the middle of writing can cause. A controller that does not reuse files removes them when it ends.", "quantifier": "for every history of starts, ends and kills, every configuration, and every crash point of a start", "why_tests_cant": "crash points and histories cannot be enumerated", "anchors": ["controller/app.py:IPController.load_config_from_json", "controller/app.py:IPController.load_secondary_config", "controller/app.py:IPController.save_connection_dict", "controller/app.py:IPController.init_hub", "controller/app.py:IPController.cleanup_connection_files"]}
{"id": "C89", "title": "A synchronous call of a coroutine method gives what the coroutine comes to", "statement": "obj.X_sync(...) returns the value of the coroutine X, or raises its exception, whether the calling thread has a running event loop or not, and whatever other _sync calls are made at the same time from other threads; the coroutine is run once, from its beginning to its end. If coroutines make no _sync calls themselves and are not cancelled in the background, every call returns, in every interleaving of callers, the background thread and its loop. No call gets an error of the wrapper itself if the first calls from threads with running loops do not overlap, nor any call begun after one such call was answered; and with such an error the coroutine has done nothing. dir(obj) lists X_sync for exactly the methods X that are coroutine functions, and obj.X_sync exists for these.", "quantifier": "for every number of calls, every coroutine, every interleaving of the threads and of what a loop goes on with, every class hierarchy", "why_tests_cant": "the interleavings of callers, the thread that is starting, and its loop cannot be enumerated", "anchors": ["_async.py:AsyncFirst._thread_main", "_async.py:AsyncFirst._in_thread", "_async.py:AsyncFirst._synchronize", "_async.py:AsyncFirst.__getattr__", "_async.py:AsyncFirst.__dir__", "_async.py:_asyncio_run"]}
{"id": "C90", "title": "Whoever is asked for a cluster reads the connection file of that cluster", "statement": "Controllers, engines, clients and launchers that are given the same profile directory and (finally) the same cluster id mean the same two files, and those of two clusters, or for clients and for engines, are different if cluster ids have no slash. So if files are written by controllers only, a client, an engine or a launcher asked for a cluster reads what a controller of that profile and that cluster id wrote, for clients or for engines as it should be. A client waits for the file until its timeout and fails to find it iff it is not there then; it reads it at most a second after it is there; engines likewise, without the second; a launcher waits for both, until the time is up or the controller stops. A Client connects to the information or file it is given, if any, otherwise to the profile directory it is given, if any, otherwise to the profile of the given name (or the default one), never to another; an engine to what its environment says, or its configured file, first.", "quantifier": "for all cluster ids, paths, orders of assignment, times at which files appear, and timeouts", "why_tests_cant": "names, schedules of writing and waiting, and timeouts cannot be enumerated", "anchors": ["client/client.py:Client.__init__", "client/client.py:Client._setup_profile_dir", "engine/app.py:IPEngine.find_connection_file", "engine/app.py:IPEngine.init_engine", "engine/app.py:IPEngine._cluster_id_changed", "controller/app.py:IPController._cluster_id_changed", "cluster/launcher.py:BaseLauncher.connection_files", "cluster/launcher.py:ControllerLauncher.get_connection_info"]}
{"id": "C91", "title": "The joblib backend closes what it opened, nothing else, and calls each callback once", "statement": "A joblib backend that is given a view uses it as it is: neither making nor terminating the backend opens, closes, starts or stops anything. Without a view, a backend that comes to be has an open client of its own, a view of all engines, at least as many engines as the cluster should have (and at least one), and the best pickler there is; it has started a cluster of its own iff there was no cluster file, and engines for a cluster it found iff that had none. If nothing goes wrong it comes to be iff there are engines enough in the end, and it waits only if there are not. Terminating it, which returns if nothing goes wrong, closes that client and stops that cluster with its engines; whatever happens, it closes no other client and stops no other cluster, least of all one that was found; terminating again does nothing more. However making it ends, no client is closed and no cluster stopped that was there, and at most one client and one cluster are left over. As many jobs run at a time as the view has engines. Whatever the order in which jobs are sent and done and callbacks added, the callback of a job is called once, with what the job came to, and not if it failed; and it is called, at the latest when nothing else is left to do.", "quantifier": "for all views, cluster files, engines, packages installed, failures at any step, numbers of jobs, and interleavings of sending, finishing and calling back", "why_tests_cant": "failures at each step and races between callbacks and completions cannot be enumerated", "anchors": ["client/_joblib.py:IPythonParallelBackend.__init__", "client/_joblib.py:IPythonParallelBackend.terminate", "client/_joblib.py:IPythonParallelBackend.apply_async", "client/_joblib.py:IPythonParallelBackend.effective_n_jobs", "client/client.py:Client.wait_for_engines", "client/view.py:View.__len__"]}
{"id": "C92", "title": "A class of __main__ arrives with the same attributes and ancestors", "statement": "A class that is not defined in __main__ is sent by its name. A class of __main__ whose ancestors can all be imported arrives, whatever its hierarchy (however multiple inheritance is used), as a new class of the same name, with the same ancestors in the same method resolution order and with the same attributes of its own (but __weakref__ and __dict__); so every attribute that is looked up gives what it gave at home, and the class is a subclass of the same classes. It never fails to arrive. If ancestors are of __main__ too but do not branch (single inheritance, over any classes that can be imported), what arrives finds every attribute as at home. Whatever its ancestors are, what a class of __main__ defines itself is found in what arrives under the same name, and no class that was there is changed.", "quantifier": "for all hierarchies that can be made from object by classes with any bases for which there is an order, all attributes", "why_tests_cant": "hierarchies with multiple inheritance of any shape cannot be enumerated; the order is recomputed on arrival from the whole old order given as bases", "anchors": ["serialize/canning.py:CannedClass", "serialize/canning.py:can_class"]}
