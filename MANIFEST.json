{
 "claims": [
  {
   "property": "C01",
   "status": "proved",
   "theorems": [
    "C01_join_waits"
   ],
   "note": "every program following the documented rules, any number of workers, every interleaving of single shared-memory accesses (sequentially consistent)"
  },
  {
   "property": "C02",
   "status": "proved",
   "theorems": [
    "C02_resumed_only_if_suspended",
    "C02_acts_only_if_running",
    "C02_one_worker"
   ],
   "note": ""
  },
  {
   "property": "C03",
   "status": "proved",
   "theorems": [
    "C03_serial",
    "C03_root_result",
    "C03_deterministic"
   ],
   "note": "C03_deterministic: programs that use only schedule-independent features have one result"
  },
  {
   "property": "C04",
   "status": "proved",
   "theorems": [
    "C04_call_waits",
    "C04_call_result",
    "C04_call_not_stealable"
   ],
   "note": ""
  },
  {
   "property": "C05",
   "status": "proved",
   "theorems": [
    "C05_signalled_at_most_once",
    "C05_signalled_at_end",
    "C05_result_available",
    "C05_finished_is_signalled"
   ],
   "note": "exactly once: at most once, and a stuck or finished execution has signalled (C06_stuck_means_finished)"
  },
  {
   "property": "C06",
   "status": "proved",
   "theorems": [
    "C06_no_deadlock",
    "C06_stuck_means_finished"
   ],
   "note": ""
  },
  {
   "property": "C07",
   "status": "partial",
   "theorems": [
    "C07_up_to_65534_partial",
    "C07_any_number_of_forks_refuted"
   ],
   "note": "FALSE of the code for more than 65534 forks in one scope (16-bit counter wraps, witness proved); up to 65534 all runtime theorems hold"
  },
  {
   "property": "C08",
   "status": "proved",
   "theorems": [
    "C08_resumed_where_asked",
    "C08_waits_at_destination",
    "C08_suspends_unless_there"
   ],
   "note": ""
  },
  {
   "property": "C09",
   "status": "proved",
   "theorems": [
    "C09_sync_true"
   ],
   "note": ""
  },
  {
   "property": "C10",
   "status": "proved",
   "theorems": [
    "C10_no_assertion_fails",
    "C10_single_owner",
    "C10_one_stack_each",
    "C10_top_is_newest",
    "C10_top_identifies_stack"
   ],
   "note": "every LF_ASSERT on the modelled paths"
  },
  {
   "property": "C11",
   "status": "proved",
   "theorems": [
    "C11_join_rethrows",
    "C11_rethrown_is_a_childs",
    "C11_none_dropped"
   ],
   "note": ""
  },
  {
   "property": "C12",
   "status": "proved",
   "theorems": [
    "C12_exception_stored",
    "C12_join_does_not_throw"
   ],
   "note": ""
  },
  {
   "property": "C13",
   "status": "partial",
   "theorems": [
    "C13_eager_throw_refuted",
    "C13_own_exception_refuted",
    "C13_eager_call_partial",
    "C13_sync_fork_partial",
    "C13_thrown_is_a_childs"
   ],
   "note": "FALSE of the code: promise.hpp:217 generates the rethrow only for return objects that store exceptions; a call or fork whose return object does not store them never throws. Proved: with a return object that stores exceptions the modifiers throw what the other children left in the task, and nothing else."
  },
  {
   "property": "C14",
   "status": "proved",
   "theorems": [
    "C14_alloc_aligned_in_bounds",
    "C14_allocs_disjoint",
    "C14_no_undefined_behaviour"
   ],
   "note": "sizes up to 2^64-4192, the exact limit (C18)"
  },
  {
   "property": "C15",
   "status": "proved",
   "theorems": [
    "C15_no_leak",
    "C15_blocks_bounded",
    "C15_empty"
   ],
   "note": ""
  },
  {
   "property": "C16",
   "status": "proved",
   "theorems": [
    "C16_throw_no_effect"
   ],
   "note": ""
  },
  {
   "property": "C17",
   "status": "proved",
   "theorems": [
    "C17_release_adopt",
    "C17_other_stacks_untouched"
   ],
   "note": ""
  },
  {
   "property": "C18",
   "status": "partial",
   "theorems": [
    "C18_request_covers_partial",
    "C18_limit_is_exact_refuted",
    "C18_size_max_refuted",
    "C18_wrapped_request_refuted"
   ],
   "note": "the property is false of the code for sizes above 2^64-4192; proved below that limit, refuted above"
  },
  {
   "property": "C19",
   "status": "proved",
   "theorems": [
    "C19_linearizable",
    "C19_nothing_invented_or_duplicated",
    "C19_nothing_lost",
    "C19_no_undefined_behaviour"
   ],
   "note": "Sequentially consistent interleavings of the single memory accesses; the memory orderings and fences of the code are not modelled."
  },
  {
   "property": "C20",
   "status": "proved",
   "theorems": [
    "C20_pop_empty",
    "C20_steal_lost",
    "C20_steal_empty",
    "C20_failed_no_effect"
   ],
   "note": ""
  },
  {
   "property": "C21",
   "status": "proved",
   "theorems": [
    "C21_capacity",
    "C21_capacity_bound",
    "C21_garbage_fits",
    "C21_thief_reads_live_buffer",
    "C21_stolen_is_oldest"
   ],
   "note": "Items kept and no wrong item obtained: also C19_linearizable, which quantifies over executions with any number of growths."
  },
  {
   "property": "C22",
   "status": "proved",
   "theorems": [
    "C22_fifo",
    "C22_all_popped",
    "C22_push_takes_effect_once",
    "C22_no_undefined_behaviour",
    "C22_push_not_blocked"
   ],
   "note": ""
  },
  {
   "property": "C23",
   "status": "proved",
   "theorems": [
    "C23_no_lost_wakeup",
    "C23_sleeper_is_counted",
    "C23_wait_returns",
    "C23_2pow32_notifications_refuted"
   ],
   "note": "C23_wait_returns: in every fair infinite execution. Without the bound of 2^32 notifications it is false (refuted theorem)."
  },
  {
   "property": "C24",
   "status": "proved",
   "theorems": [
    "C24_counter",
    "C24_no_assertion_fails",
    "C24_sleeps_iff"
   ],
   "note": ""
  },
  {
   "property": "C25",
   "status": "proved",
   "theorems": [
    "C25_returns_when_true",
    "C25_throws_what_condition_threw",
    "C25_registration_restored",
    "C25_sleeps_only_when_false"
   ],
   "note": ""
  },
  {
   "property": "C26",
   "status": "proved",
   "theorems": [
    "C26_job_not_slept_through",
    "C26_job_run"
   ],
   "note": "C26_job_run: in every fair infinite execution, unless the pool is told to stop. Sequentially consistent."
  },
  {
   "property": "C27",
   "status": "proved",
   "theorems": [
    "C27_somebody_searches",
    "C27_search_starts"
   ],
   "note": "Sequentially consistent interleavings: the code's acq_rel orderings are weaker (see DESIGN.md)."
  },
  {
   "property": "C28",
   "status": "proved",
   "theorems": [
    "C28_lazy_nobody_asleep",
    "C28_lazy_terminates",
    "C28_lazy_threads_left",
    "C28_busy_drains",
    "C28_busy_threads_left",
    "C28_busy_terminates"
   ],
   "note": "Termination: in every fair infinite execution in which from some time on nothing is scheduled or stolen."
  },
  {
   "property": "C29",
   "status": "proved",
   "theorems": [
    "C29_for_each_visits_each_once",
    "C29_for_each_counts",
    "C33_for_each_no_race"
   ],
   "note": "All three overload families (chunked, n = 1, range)."
  },
  {
   "property": "C30",
   "status": "proved",
   "theorems": [
    "C30_map_result",
    "C33_map_no_race"
   ],
   "note": "Output equal to or disjoint from the input; C33_overlap_races shows that this is needed."
  },
  {
   "property": "C31",
   "status": "proved",
   "theorems": [
    "C31_fold_result"
   ],
   "note": ""
  },
  {
   "property": "C32",
   "status": "proved",
   "theorems": [
    "C32_scan_result",
    "C33_scan_no_race"
   ],
   "note": "Synchronous and asynchronous operations, every outcome of the synchronous-fork test."
  },
  {
   "property": "C33",
   "status": "proved",
   "theorems": [
    "C33_for_each_no_race",
    "C33_map_no_race",
    "C33_fold_no_race",
    "C33_scan_no_race"
   ],
   "note": "safe: also no access out of bounds and no undefined behaviour."
  },
  {
   "property": "C34",
   "status": "partial",
   "theorems": [
    "C34_for_each_terminates",
    "C34_map_terminates",
    "C34_fold_terminates",
    "C34_scan_terminates",
    "C34_scan_chunk_size_refuted",
    "C34_for_each_map_chunk_size_refuted",
    "C34_fold_chunk_size_refuted"
   ],
   "note": "Proved for n >= 1. For n <= 0 the property is false: the refuted theorems show undefined behaviour (assertions on n, or for scan a chunk of one element split again)."
  },
  {
   "property": "C35",
   "status": "proved",
   "theorems": [
    "C35_write_once",
    "C35_second_store_undefined",
    "C35_destroyed_once",
    "C35_moved_out_exception_refuted"
   ],
   "note": "Every admissible type. The restriction on moved-out exceptions of void cells is needed: refuted theorem."
  },
  {
   "property": "C36",
   "status": "proved",
   "theorems": [
    "C36_never_undefined",
    "C36_not_before_signal",
    "C36_destroyed_empty",
    "C36_get_delivers",
    "C36_one_ending",
    "C36_get_once",
    "C36_valid",
    "C36_broken",
    "C36_broken_throws",
    "C36_acquired_once",
    "C36_detached_destructor",
    "C36_waits_once",
    "C36_no_deadlock",
    "C36_task_goes_on",
    "C36_no_leak",
    "C36_freed"
   ],
   "note": "Any number of client threads, futures and root tasks; two threads do not use the same future object at once."
  },
  {
   "property": "C37",
   "status": "partial",
   "theorems": [
    "C37_safe",
    "C37_flags",
    "C37_init_ok",
    "C37_init_twice",
    "C37_finalize_misuse",
    "C37_finalize_ok",
    "C37_finalize_undoes",
    "C37_init_failure_refuted",
    "C37_context_failure_refuted",
    "C37_init_inside_schedule_refuted"
   ],
   "note": "Proved when worker_init's allocations succeed and it is not called from code that schedule runs. The all-or-nothing clause for a failing allocation is FALSE of the code, as is safety inside schedule: the three refuted theorems show what happens for every such call."
  },
  {
   "property": "C38",
   "status": "partial",
   "theorems": [
    "C38_all_or_nothing_partial",
    "C38_in_worker_throws",
    "C38_schedule_throws_refuted",
    "C37_safe"
   ],
   "note": "The stated property is FALSE of the code: for every reachable state in which the scheduler throws, destroying the coroutine is undefined behaviour (refuted theorem). All other failures inside schedule are proved to restore memory and threads exactly."
  },
  {
   "property": "C39",
   "status": "proved",
   "theorems": [
    "C39_just"
   ],
   "note": ""
  },
  {
   "property": "C40",
   "status": "partial",
   "theorems": [
    "C40_co_new",
    "C40_co_new_release",
    "C40_count_overflow_refuted"
   ],
   "note": "proved when count*sizeof(T) does not exceed the limit; refuted on overflow of the product"
  },
  {
   "property": "C41",
   "status": "proved",
   "theorems": [
    "C41_jump",
    "C41_long_jump",
    "C41_subsequences_disjoint"
   ],
   "note": ""
  },
  {
   "property": "C42",
   "status": "proved",
   "theorems": [
    "C42_words",
    "C42_injective",
    "C42_surjective",
    "C42_nonzero",
    "C42_period",
    "C42_one_cycle"
   ],
   "note": ""
  },
  {
   "property": "C43",
   "status": "proved",
   "theorems": [
    "C43_views",
    "C43_complete",
    "C43_numbers",
    "C43_safe",
    "C43_succeeds",
    "C43_plain"
   ],
   "note": "hwloc is an arbitrary oracle that returns as many bitmaps as asked for and ancestors that are not deeper; without hwloc the workers are assumed distinct (as in the pools)."
  },
  {
   "property": "C44",
   "status": "proved",
   "theorems": [
    "C44_init",
    "C44_safe",
    "C44_returns_stolen",
    "C44_gives_up",
    "C44_bounded",
    "C44_only_from_others"
   ],
   "note": "Weights are exact rationals, not doubles."
  },
  {
   "property": "C45",
   "status": "partial",
   "theorems": [
    "C45_for_each_exceptions",
    "C45_map_exceptions",
    "C45_fold_exceptions",
    "C45_scan_returns",
    "C45_scan_exception_refuted",
    "C45_fold_async_exception_refuted"
   ],
   "note": "Proved for for_each, map and fold with a synchronous operation. False for scan (a child that throws in a synchronous fork) and for asynchronous operations in the sequential part of fold: refuted theorems."
  },
  {
   "property": "C46",
   "status": "proved",
   "theorems": [
    "C46_never_undefined"
   ],
   "note": ""
  },
  {
   "property": "C47",
   "status": "proved",
   "theorems": [
    "C47_lazy_jobs_in_order",
    "C47_busy_jobs_in_order"
   ],
   "note": ""
  },
  {
   "property": "C48",
   "status": "partial",
   "theorems": [
    "C48_lazy_drains_refuted",
    "C47_lazy_jobs_in_order"
   ],
   "note": "FALSE of the code: a job scheduled between a worker's second look at its list and its test of the stop flag is dropped (witness proved). What holds is C26 and C47."
  },
  {
   "property": "C49",
   "status": "proved",
   "theorems": [
    "C49_busy_job_run"
   ],
   "note": ""
  },
  {
   "property": "C50",
   "status": "proved",
   "theorems": [
    "C50_fewest_packages"
   ],
   "note": ""
  },
  {
   "property": "C51",
   "status": "proved",
   "theorems": [
    "C51_no_endless_execution",
    "C51_sync_wait_returns",
    "C51_finite_programs_terminate"
   ],
   "note": "Any terminating programs (possibly infinite trees whose infinite branches no serial execution takes). Fairness: the machine as a whole does not rest forever while a worker can make a step."
  },
  {
   "property": "C52",
   "status": "proved",
   "theorems": [
    "C52_no_undefined_behaviour",
    "C52_linearizable_up_to_empty",
    "C52_nothing_invented_or_duplicated",
    "C52_nothing_lost",
    "C52_pop_empty",
    "C52_steal_lost",
    "C52_steal_empty",
    "C52_stores_reach_memory",
    "C52_linearizable_refuted"
   ],
   "note": "x86-TSO: first-in first-out store buffer of the owner. The refuted theorem shows that full linearizability (C19, which assumes sequential consistency) fails: a steal may miss a push that has returned."
  },
  {
   "property": "C53",
   "status": "partial",
   "theorems": [
    "C53_no_undefined_behaviour_refuted",
    "C53_no_undefined_behaviour_partial",
    "C53_linearizable_up_to_empty_partial",
    "C53_nothing_invented_or_duplicated_partial",
    "C53_release_no_undefined_behaviour",
    "C53_release_linearizable_up_to_empty",
    "C53_release_nothing_invented_or_duplicated"
   ],
   "note": "FALSE of the code: the new buffer is published with a relaxed store (deque.hpp:395), so a thief can take an indeterminate value (refuted theorem). Proved while the buffer has not been replaced, and for all executions if line 395 used memory_order_release. Loads are in program order in the model."
  },
  {
   "property": "C54",
   "status": "proved",
   "theorems": [
    "C54_no_data_race",
    "C54_conflicts_ordered",
    "execution_all"
   ],
   "note": "Happens-before of the C++20 standard over interleavings in which an atomic read takes the last value written (SyncSpec.v); memory_order_consume counts as acquire. The slots and the buffer of the deque are not listed (C52, C53), nor is the reference count of a shared state."
  },
  {
   "property": "C55",
   "status": "proved",
   "theorems": [
    "C55_task_is_sequential",
    "C55_before_fork",
    "C55_before_submit",
    "C55_after_call",
    "C55_after_join",
    "C55_before_get",
    "C55_shared_variable"
   ],
   "note": "As C54."
  },
  {
   "property": "C56",
   "status": "proved",
   "theorems": [
    "C56_never_undefined",
    "C56_jobs_in_order",
    "C56_job_not_slept_through",
    "C56_nobody_asleep",
    "C56_threads_left",
    "C56_interleavings_covered"
   ],
   "note": "View-based release-acquire memory; the epoch comparison in atomic::wait reads the newest epoch. C56_interleavings_covered: every execution of the interleaving model is among those considered."
  },
  {
   "property": "C57",
   "status": "partial",
   "theorems": [
    "C57_somebody_searches_refuted",
    "C57_somebody_searches_partial"
   ],
   "note": "FALSE of the code (F20): two workers, one domain; acq_rel read-modify-write followed by an acquire load of another variable on both sides is the store-buffering pattern. Proved when the loads return the newest values (seq_cst)."
  },
  {
   "property": "C58",
   "status": "proved",
   "theorems": [
    "C58_never_undefined",
    "C58_parts",
    "C58_sync_wait_returns",
    "C58_destructor_returns"
   ],
   "note": "The loop of lazy_pool and the runtime run together (WholeModel.v), sequentially consistent. Fairness is of the operating system's scheduler only: each thread that can make a step makes one again and again. C58_parts: every execution is one of the pool's model and one of the runtime's model, so the safety theorems of both apply."
  },
  {
   "property": "C59",
   "status": "proved",
   "theorems": [
    "C59_idle_pool_sleeps",
    "C59_back_to_sleep",
    "C59_programs_done_pool_sleeps"
   ],
   "note": "Sequentially consistent. Staying asleep for ever needs that spurious wake-ups end; C59_back_to_sleep is without that assumption."
  },
  {
   "property": "C60",
   "status": "proved",
   "theorems": [
    "C60_never_undefined",
    "C60_parts",
    "C60_sync_wait_returns",
    "C60_destructor_returns"
   ],
   "note": "BusyModel and the runtime run together (BWholeModel.v), sequentially consistent. unit = true is unit_pool."
  },
  {
   "property": "C61",
   "status": "proved",
   "theorems": [
    "C61_destructor_finishes",
    "C61_unit_pool",
    "C61_moved_task_lost"
   ],
   "note": "C61_moved_task_lost shows that the documented restriction is needed: a task that moves to another worker after the destructor has been called can be lost."
  },
  {
   "property": "C62",
   "status": "proved",
   "theorems": [
    "C62_no_use_after_free",
    "C62_victims_live",
    "C62_nothing_left"
   ],
   "note": "LifeModel.v: constructor, start and stop latch, contexts, destructor, one step per access."
  },
  {
   "property": "C63",
   "status": "proved",
   "theorems": [
    "C63_constructor_ends",
    "C63_returned",
    "C63_unit_returned",
    "C63_thrown",
    "C63_late_failure_terminates",
    "C63_empty_pool_refuted"
   ],
   "note": "For at least one worker; a pool with none (hardware_concurrency() may return 0) cannot be used. A failing allocation after the threads are started ends the program."
  },
  {
   "property": "C64",
   "status": "partial",
   "theorems": [
    "C64_other_pool_refuted",
    "C64_own_threads_partial"
   ],
   "note": "False of the code: the worker that moved the task can still be between the push and the notification, which uses the destroyed context. Holds if only threads of the user submit from outside."
  },
  {
   "property": "C65",
   "status": "partial",
   "theorems": [
    "C65_moved_pools_refuted",
    "C65_target_partial"
   ],
   "note": "False of the code: the destructor of a moved-from pool dereferences the null m_share, and assigning to a pool destroys joinable threads. No program that moves a pool can destroy all its pools."
  },
  {
   "property": "C66",
   "status": "proved",
   "theorems": [
    "C66_serial_run",
    "C66_same_tasks"
   ],
   "note": "RuntimeSpec.v: recorded, serial. The same call tree for pure programs without allocation failures."
  },
  {
   "property": "C67",
   "status": "proved",
   "theorems": [
    "C67_well_scoped",
    "C67_terminates",
    "C67_visits_each_once",
    "C67_lazy_pool",
    "C67_busy_pool",
    "C67_lazy_pool_deques",
    "C67_busy_pool_deques",
    "C67_lazy_pool_memory",
    "C67_busy_pool_memory"
   ],
   "note": "for_each as a task of the runtime model (AlgoTaskModel.v). Calls of an async fn are counted in the recorded call tree; a labelling of tasks tells them from other tasks. Calls of an ordinary fn are not events of the model; C29 covers them."
  },
  {
   "property": "C68",
   "status": "proved",
   "theorems": [
    "C68_well_scoped",
    "C68_terminates",
    "C68_left_fold",
    "C68_parallel",
    "C68_lazy_pool",
    "C68_busy_pool",
    "C68_lazy_pool_deques",
    "C68_busy_pool_deques",
    "C68_lazy_pool_memory",
    "C68_busy_pool_memory"
   ],
   "note": "fold as a task of the runtime model. Async operations with n > 1 are excluded by the statement: the code breaks the rules there (C13, C45)."
  },
  {
   "property": "C69",
   "status": "proved",
   "theorems": [
    "C69_busy_leaves",
    "C69_space",
    "C69_linear",
    "C69_for_each",
    "C69_fold",
    "C69_rescheduling_refuted"
   ],
   "note": "SpaceSpec.v: serial_space, space. Frames of tasks only (not co_new memory, not the unused part of stacklets). C69_rescheduling_refuted: without the term for queued tasks the bound is false."
  },
  {
   "property": "C70",
   "status": "proved",
   "theorems": [
    "C70_refines",
    "C70_no_undefined",
    "C70_serial",
    "C70_root_result",
    "C70_join_waits",
    "C70_resumed_only_if_suspended",
    "C70_one_worker",
    "C70_signalled_at_most_once"
   ],
   "note": "FineModel.v: RuntimeModel on the deques of DequeModel; sequentially consistent; the submission lists stay atomic. C70_refines carries every statement about histories (C01-C12, C51, C66-C69) over; some are restated."
  },
  {
   "property": "C71",
   "status": "proved",
   "theorems": [
    "C71_sync_wait_returns",
    "C71_all_tasks_end"
   ],
   "note": "Sequentially consistent; submission lists atomic. pool_loop (FineLiveSpec.v) assumes of the workers only that each makes steps while it has something to do and polls its list after at most K steals."
  },
  {
   "property": "C72",
   "status": "proved",
   "theorems": [
    "C72_wait_free",
    "C72_never_blocked",
    "C72_space",
    "C72_copying",
    "C72_amortised",
    "C72_copying_defined"
   ],
   "note": "Sequentially consistent, compare_exchange_strong. A step is one access to shared memory or the return; the copying inside resize is one step there and is counted by C72_copying."
  },
  {
   "property": "C73",
   "status": "proved",
   "theorems": [
    "C73_counter_only_decreases",
    "C73_every_value_covered",
    "C73_outdated_value_same_outcome",
    "C73_never_early",
    "C73_flag_only_rises",
    "C73_every_flag_of_a_fork_covered",
    "C73_every_flag_of_a_call_covered",
    "C73_missed_exception_not_lost"
   ],
   "note": "StaleSpec.v: visible, visible_flag, join_reading, fork_reading, call_reading. That the worker running a task happens after the last join of the task, and after the task cleared its flag, and so cannot read older values than that, is C54/C55. The outdated step is part of the executions that C01-C12, C51, C54, C55, C58-C61, C66-C71 quantify over."
  },
  {
   "property": "C74",
   "status": "partial",
   "theorems": [
    "C74_no_undefined_behaviour_refuted",
    "C74_no_undefined_behaviour_partial",
    "C74_linearizable_up_to_empty_partial",
    "C74_nothing_invented_or_duplicated_partial",
    "C74_nothing_lost_partial",
    "C74_pop_empty_partial",
    "C74_release_no_undefined_behaviour",
    "C74_release_linearizable_up_to_empty",
    "C74_release_nothing_invented_or_duplicated",
    "C74_release_nothing_lost",
    "C74_release_pop_empty",
    "C74_each_ordering_needed",
    "C74_linearizable_refuted",
    "C74_lost_only_if_taken_since_refuted"
   ],
   "note": "FALSE of the code when the buffer grows (F17). Proved for the code while the first buffer is in use, and without restriction with memory_order_release in line 395. View machine for relaxed, release, acquire and seq_cst fences; no load buffering. C74_lost_only_if_taken_since_refuted and C74_linearizable_refuted: what sequential consistency gives (C19, C52) and this model does not."
  },
  {
   "property": "C75",
   "status": "proved",
   "theorems": [
    "C75_never_undefined",
    "C75_refines",
    "C75_sync_wait_returns",
    "C75_destructor_returns"
   ],
   "note": "DeepModel.v: the loop of lazy_pool (LazyModel) drives the runtime on the deques of DequeModel (FineModel), one access at a time. Sequentially consistent; submission lists atomic. Fairness is of the operating system's scheduler only; try_steal makes at most K steals, from any victims."
  },
  {
   "property": "C76",
   "status": "proved",
   "theorems": [
    "C76_never_undefined",
    "C76_refines",
    "C76_sync_wait_returns",
    "C76_destructor_returns",
    "C76_destructor_finishes",
    "C76_unit_pool"
   ],
   "note": "BDeepModel.v: the loops of busy_pool and unit_pool (BusyModel) drive the runtime on the deques of DequeModel (FineModel), one access at a time. Sequentially consistent; submission lists atomic. Fairness is of the operating system's scheduler only; try_steal makes at most K steals, from any victims. The restriction on moves after the destructor was called is needed: C61_moved_task_lost."
  },
  {
   "property": "C77",
   "status": "proved",
   "theorems": [
    "C77_never_undefined",
    "C77_refines",
    "C77_progress",
    "C77_frames_in_memory",
    "C77_frames_apart",
    "C77_frames_stay",
    "C77_blocks_bounded",
    "C77_shutdown"
   ],
   "note": "RStackModel.v: every step of RuntimeModel also runs the stack code of the functions it models, on the stacks of StackModel, with any malloc. co_new inside tasks is not part of the programs (C40 has it). schedule() is one step and a failure of the scheduler itself is left to C38."
  },
  {
   "property": "C78",
   "status": "partial",
   "theorems": [
    "C78_outlives_refuted",
    "C78_outlives_partial",
    "C78_all_joined_partial"
   ],
   "note": "The stated property is FALSE of the code: move-assigning to a valid future drops its task without waiting (F14). Proved: assignment is the only exception. The model is that of C36."
  },
  {
   "property": "C79",
   "status": "proved",
   "theorems": [
    "C79_never_undefined",
    "C79_refines",
    "C79_refines_deques",
    "C79_progress",
    "C79_serial",
    "C79_root_result",
    "C79_frames_in_memory",
    "C79_frames_stay",
    "C79_blocks_bounded",
    "C79_shutdown"
   ],
   "note": "FStackModel.v: FineModel and RStackModel at once. Sequentially consistent deques; submission lists atomic. The child of a fork is allocated when the push of its parent takes effect; in the code just before the push, which touches no stack."
  },
  {
   "property": "C80",
   "status": "proved",
   "theorems": [
    "C80_never_undefined",
    "C80_refines",
    "C80_progress",
    "C80_frames_in_memory",
    "C80_destructor_frees",
    "C80_sync_wait_returns",
    "C80_destructor_returns"
   ],
   "note": "BStackModel.v: BDeepModel (pool, runtime, deques) with the stack code of FStackModel. Sequentially consistent deques; submission lists atomic. Workers' stacks are created before the pool does anything and destroyed when it has been joined; in the code by each thread at its beginning and end."
  },
  {
   "property": "C81",
   "status": "proved",
   "theorems": [
    "C81_never_undefined",
    "C81_refines",
    "C81_progress",
    "C81_frames_in_memory",
    "C81_sync_wait_returns",
    "C81_destructor_returns"
   ],
   "note": "LStackModel.v: DeepModel (lazy_pool, runtime, deques) with the stack code of FStackModel. As C80."
  },
  {
   "property": "C82",
   "status": "partial",
   "theorems": [
    "C82_submitters_race_refuted",
    "C82_mutex_partial",
    "C82_one_thread_partial"
   ],
   "note": "The stated property is FALSE of the code: schedule() of busy_pool and lazy_pool advances an unprotected random number generator (F26). Proved: no race if clients lock a mutex of their own around schedule(), or if only one thread submits to the pool and the others to worker contexts. SubmitModel.v has the accesses to the generator only; the rest of a submission is in C22 and C54."
  },
  {
   "property": "C83",
   "status": "partial",
   "theorems": [
    "C83_constructor_leaks_refuted",
    "C83_constructor_partial",
    "C83_destructor_frees_all_partial",
    "C83_push_never_terminates_partial",
    "C83_push_all_or_nothing_partial",
    "C83_push_succeeds_partial",
    "C83_push_defined_partial",
    "C83_bytes_overflow_refuted"
   ],
   "note": "The stated property is FALSE of the constructor: the buffer is lost if m_garbage.reserve throws (F13). All the rest of it is proved. Operations are atomic in DMemModel.v (only the owner allocates; C21 has the interleavings). C83_push_defined_partial needs elements of more than one byte (C83_bytes_overflow_refuted: 2 * m_cap overflows at 2^62 elements of one byte)."
  }
 ]
}