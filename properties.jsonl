{"id": "C01", "title": "join waits for every forked child", "statement": "When the code after `co_await lf::join` starts to run, every task forked in that scope has finished and its return value (or its exception) has been stored where the parent can see it.", "quantifier": "every fork-join program (any nesting of fork, call, join, explicit rescheduling, exceptions; at most 65534 forks per scope), any number of workers, every interleaving of their steps", "why_tests_cant": "a test samples a few interleavings; a missed child shows up only in a rare race between the last child and the joining parent", "anchors": ["include/libfork/core/impl/awaitables.hpp: join_awaitable", "include/libfork/core/impl/promise.hpp: final_await_suspend", "include/libfork/core/impl/frame.hpp: frame::fetch_sub_joins, fetch_add_steal, reset"]}
{"id": "C02", "title": "a suspended task is resumed once and by one worker", "statement": "A task is never run by two workers at the same time, and each suspension (fork, call, join, context switch) is followed by at most one resumption of the same continuation.", "quantifier": "every program, number of workers and interleaving as in C01", "why_tests_cant": "double resumption needs two workers to win the same race; absence over all schedules cannot be sampled", "anchors": ["include/libfork/core/impl/promise.hpp: final_await_suspend", "include/libfork/core/impl/awaitables.hpp: join_awaitable, try_self_stealing, context_switch_awaitable", "include/libfork/core/ext/resume.hpp"]}
{"id": "C03", "title": "parallel runs agree with the serial program", "statement": "When a root task started by sync_wait/schedule completes, the value or exception it delivers is one that the serial reading of the program (fork = call, join = check exceptions) allows; for a program in which no task throws it is exactly the serial value.", "quantifier": "every program, number of workers and interleaving as in C01", "why_tests_cant": "equality with the serial elision must hold for every schedule", "anchors": ["include/libfork/core/impl/promise.hpp", "include/libfork/core/impl/awaitables.hpp", "include/libfork/core/sync_wait.hpp"]}
{"id": "C04", "title": "call is sequential", "statement": "The continuation of `co_await lf::call[...]` runs only after the called task has finished, and nobody can steal it meanwhile.", "quantifier": "every program, number of workers and interleaving as in C01", "why_tests_cant": "depends on every possible steal point", "anchors": ["include/libfork/core/impl/awaitables.hpp: call_awaitable", "include/libfork/core/impl/promise.hpp: final_awaitable"]}
{"id": "C05", "title": "the root is signalled exactly once, at the end", "statement": "The semaphore that releases the waiting caller is posted exactly once per root task, and only after every task in its tree has finished; after it, no task frame of that tree other than the root's own is alive.", "quantifier": "every program, number of workers and interleaving as in C01", "why_tests_cant": "premature or duplicate signals appear only in rare races", "anchors": ["include/libfork/core/impl/promise.hpp: final_awaitable", "include/libfork/core/sync_wait.hpp: schedule, future"]}
{"id": "C06", "title": "no deadlock", "statement": "While some root task is unfinished there is a worker that can take a step of the computation (run, finish, join, pop, steal or take a submission); the runtime never reaches a state where work exists but nothing can run.", "quantifier": "every reachable state of every program as in C01", "why_tests_cant": "absence of deadlock quantifies over all reachable states", "anchors": ["include/libfork/core/impl/awaitables.hpp", "include/libfork/core/impl/promise.hpp", "include/libfork/core/ext/resume.hpp"]}
{"id": "C07", "title": "limit of the 16-bit join counter", "statement": "Fork-join scopes with up to 65534 forks are joined correctly whatever is stolen; the API states no limit on the number of forks in a scope, so correctness should hold for every number.", "quantifier": "every number of forks (and steals) in a scope", "why_tests_cant": "tests would need 65535 steals of the same frame in one scope", "anchors": ["include/libfork/core/impl/frame.hpp: m_join, m_steal", "include/libfork/core/impl/awaitables.hpp: join_awaitable"]}
{"id": "C08", "title": "explicit rescheduling resumes on the requested worker once", "statement": "After `co_await lf::resume_on(w)` the task continues on worker w, exactly once, and the surrounding fork-join structure still joins correctly.", "quantifier": "every program with any number of context switches at any position, every interleaving", "why_tests_cant": "interaction of context switches with steals and self-steals has too many schedules", "anchors": ["include/libfork/core/scheduler.hpp: resume_on", "include/libfork/core/impl/awaitables.hpp: context_switch_awaitable, try_self_stealing", "include/libfork/core/ext/resume.hpp: resume(submit_handle)"]}
{"id": "C09", "title": "sync fork reports truthfully", "statement": "If `co_await dispatch<fork, sync>[...]` returns true, the forked child has already completed (so its result may be read before the join).", "quantifier": "every program, number of workers and interleaving as in C01", "why_tests_cant": "a wrong `true` needs a particular steal history", "anchors": ["include/libfork/core/impl/awaitables.hpp: sync_fork_awaitable"]}
{"id": "C10", "title": "segmented stacks are used by one worker at a time in FILO order", "statement": "At every allocation or release of a coroutine frame the running worker is the only owner of the segmented stack involved, frames on a stack are released in the reverse order of allocation, and none of the runtime's ownership assertions can fail.", "quantifier": "every program, number of workers and interleaving as in C01", "why_tests_cant": "stack hand-over between workers happens only in races at joins, steals and switches", "anchors": ["include/libfork/core/impl/promise.hpp: final_await_suspend, operator new/delete", "include/libfork/core/impl/awaitables.hpp: take_stack_reset_frame, context_switch_awaitable", "include/libfork/core/impl/stack.hpp: stack::release"]}
{"id": "C11", "title": "exceptions of children are rethrown at the join, none is silently dropped", "statement": "If a forked or called task without an exception-capturing return object ends with an exception (or the parent stashes one), the next join of the parent throws one of the exceptions captured in that scope; if none was captured the join does not throw; after the throw the frame is clean, so the exception is thrown once.", "quantifier": "every program and interleaving as in C01, any number of throwing children in parallel", "why_tests_cant": "which child wins the race to store its exception depends on the schedule", "anchors": ["include/libfork/core/impl/frame.hpp: capture_exception, rethrow, unsafe_rethrow_if_exception", "include/libfork/core/impl/promise.hpp: unhandled_exception", "include/libfork/core/first_arg.hpp: stash_exception"]}
{"id": "C12", "title": "exception-capturing return objects keep the exception", "statement": "If the return object satisfies stash_exception_in_return (e.g. try_eventually), the child's exception is stored in that object and the join does not throw because of it.", "quantifier": "every program and interleaving as in C01", "why_tests_cant": "depends on all mixes of throwing and non-throwing siblings", "anchors": ["include/libfork/core/impl/promise.hpp: unhandled_exception", "include/libfork/core/eventually.hpp: stash_exception", "include/libfork/core/exceptions.hpp"]}
{"id": "C13", "title": "eager_throw and sync modifiers rethrow the child's exception", "statement": "As documented for dispatch: after a `call` with eager_throw(_outside), or a `fork` with sync(_outside) that completed synchronously, an exception that the child left in its parent is thrown immediately at that co_await.", "quantifier": "every child outcome, return-object kind and modifier", "why_tests_cant": "the library's tests do not combine modifiers with plain return addresses and exceptions", "anchors": ["include/libfork/core/control_flow.hpp: dispatch", "include/libfork/core/impl/promise.hpp: await_transform", "include/libfork/core/impl/awaitables.hpp: eager_call_awaitable, sync_fork_awaitable"]}
{"id": "C14", "title": "stack allocations are aligned, in bounds and disjoint", "statement": "Every live allocation of a stack is 16-byte aligned, lies inside one live heap block past its header, has at least the requested size and overlaps no other live allocation.", "quantifier": "every FILO sequence of allocate/deallocate/release/resume of any sizes below the overflow limit, every pattern of addresses malloc returns", "why_tests_cant": "all size sequences and stacklet boundary positions cannot be enumerated", "anchors": ["include/libfork/core/impl/stack.hpp: stack::allocate, deallocate, stacklet::next_stacklet"]}
{"id": "C15", "title": "stack memory is neither leaked nor freed twice", "statement": "Every heap block obtained by a stack is freed exactly once by the time the stack is destroyed, at most one empty stacklet is cached ahead of the top, and after a balanced sequence the stack is empty again.", "quantifier": "every FILO sequence of operations of any length and sizes", "why_tests_cant": "leaks depend on growth/shrink histories of unbounded length", "anchors": ["include/libfork/core/impl/stack.hpp: set_next, deallocate, ~stack"]}
{"id": "C16", "title": "stack allocation failure has no effect", "statement": "If malloc fails inside allocate or release the exception leaves the stack, its blocks and its live allocations exactly as they were.", "quantifier": "every reachable stack state, every point at which malloc fails", "why_tests_cant": "failure injection at every allocation of every history is not testable", "anchors": ["include/libfork/core/impl/stack.hpp: next_stacklet, allocate, release"]}
{"id": "C17", "title": "releasing and re-adopting a stack preserves it", "statement": "Releasing a stack and later constructing a stack from the returned stacklet gives back a stack with the same live allocations, top and capacity; in between the releasing worker has a fresh empty stack.", "quantifier": "every reachable stack state and every later operation of the other workers' stacks", "why_tests_cant": "must hold at every hand-over point", "anchors": ["include/libfork/core/impl/stack.hpp: release, stack(stacklet*), operator="]}
{"id": "C18", "title": "stack size arithmetic never under-allocates", "statement": "The number of bytes requested from malloc for a stacklet is never smaller than header + requested size, for any size argument.", "quantifier": "every 64-bit size", "why_tests_cant": "wrap-around occurs only for sizes within a few KiB of 2^64", "anchors": ["include/libfork/core/impl/stack.hpp: round_up_to_page_size, next_stacklet, allocate", "include/libfork/core/impl/awaitables.hpp: alloc_awaitable"]}
{"id": "C19", "title": "the work-stealing deque behaves like a sequential deque", "statement": "Every concurrent history of one owner (push/pop) and any number of thieves (steal) is explained by a sequential deque: pop returns the newest item, steal the oldest, each pushed item is returned at most once and no item is lost or invented.", "quantifier": "every interleaving of the atomic steps of the owner and any number of thieves, every initial power-of-two capacity, any number of operations and resizes", "why_tests_cant": "linearizability quantifies over all interleavings", "anchors": ["include/libfork/core/ext/deque.hpp: deque::push, pop, steal"]}
{"id": "C20", "title": "failed deque operations mean what they say", "statement": "pop reports empty only when the deque holds no item; steal reports lost only if another operation took an item in the meantime; steal reports empty only if the deque was empty or the owner was in the middle of popping its last item.", "quantifier": "every interleaving as in C19", "why_tests_cant": "the failing branches are rare races", "anchors": ["include/libfork/core/ext/deque.hpp: deque::pop, steal"]}
{"id": "C21", "title": "ring-buffer growth is safe", "statement": "Growing the deque keeps all items, thieves that still read an old buffer never obtain a wrong item as a successful steal, no buffer is freed while a thief can read it, and capacity stays a power of two not smaller than the number of items.", "quantifier": "every interleaving as in C19", "why_tests_cant": "needs a thief preempted across a resize", "anchors": ["include/libfork/core/ext/deque.hpp: atomic_ring_buf::resize, deque::push"]}
{"id": "C22", "title": "the submission list loses and duplicates nothing and is FIFO", "statement": "Every node pushed to a worker's submission list by any producer is returned by exactly one try_pop_all, and the consumer sees nodes in the order their pushes took effect.", "quantifier": "every interleaving of any number of producers and the consumer", "why_tests_cant": "lost updates need a CAS race", "anchors": ["include/libfork/core/ext/list.hpp: intrusive_list::push, try_pop_all, for_each_elem"]}
{"id": "C23", "title": "event_count: no lost wake-up", "statement": "If a notify_all happens after a thread's prepare_wait returned, that thread's wait returns (it does not stay blocked); a thread blocked in wait is always counted, so a notifier that must wake it sees it.", "quantifier": "every interleaving of any number of waiters and notifiers (fewer than 2^32 concurrent waiters and notifications between prepare and wait)", "why_tests_cant": "a lost wake-up is a one-in-a-billion interleaving", "anchors": ["include/libfork/schedule/ext/event_count.hpp: event_count"]}
{"id": "C24", "title": "event_count: packed counter arithmetic", "statement": "The waiter count in the low 32 bits equals the number of threads between prepare_wait and the end of wait/cancel_wait, and never spills into the epoch; the epoch counts notifications modulo 2^32, so a waiter can miss exactly a multiple of 2^32 notifications.", "quantifier": "every history of operations", "why_tests_cant": "overflow at 2^32 cannot be tested", "anchors": ["include/libfork/schedule/ext/event_count.hpp: k_add_waiter, k_add_epoch, k_waiter_mask"]}
{"id": "C25", "title": "event_count::await returns only when the condition was observed true and always cleans up", "statement": "await(cond) returns normally only right after cond() returned true, throws only what cond() threw, and in all cases leaves the number of registered waiters as it was.", "quantifier": "every sequence of condition outcomes (true, false, throw) and every interleaving with notifiers", "why_tests_cant": "unbounded loop with exceptional exits", "anchors": ["include/libfork/schedule/ext/event_count.hpp: event_count::await"]}
{"id": "C26", "title": "lazy_pool: a submitted job is never slept through", "statement": "After a job has been scheduled to a worker of a lazy_pool the worker cannot be (or go) to sleep forever with the job in its queue: it is awake or about to be woken until it has taken the job.", "quantifier": "every interleaving of submitters, workers, thieves and notifications", "why_tests_cant": "lost wake-ups are rare races", "anchors": ["include/libfork/schedule/lazy_pool.hpp: lazy_work", "include/libfork/schedule/ext/event_count.hpp", "include/libfork/core/ext/context.hpp: worker_context::schedule"]}
{"id": "C27", "title": "lazy_pool: while someone works, someone is looking for work", "statement": "Whenever some worker is active, each NUMA domain has a worker that is awake and not asleep for good (thief, active, or already woken), unless a wake-up of that domain is still about to be issued.", "quantifier": "every interleaving of the workers' counter updates and event-count operations, any number of workers and domains", "why_tests_cant": "the documented invariant ranges over all interleavings", "anchors": ["include/libfork/schedule/lazy_pool.hpp: lazy_vars::thief_work_sleep, lazy_work"]}
{"id": "C28", "title": "pool shutdown terminates and, for busy_pool and unit_pool, drains", "statement": "After the destructor of busy_pool, unit_pool or lazy_pool is called and no more work turns up, it returns, with every worker thread gone and none left asleep; for busy_pool and unit_pool every job scheduled before the stop has been run by then.", "quantifier": "every interleaving of workers, submitters and the destructor; jobs submitted before the stop", "why_tests_cant": "shutdown races are timing dependent", "anchors": ["include/libfork/schedule/busy_pool.hpp: busy_work, ~busy_pool", "include/libfork/schedule/unit_pool.hpp: work", "include/libfork/schedule/lazy_pool.hpp: lazy_work, ~lazy_pool"]}
{"id": "C29", "title": "for_each visits every element exactly once", "statement": "for_each(range, n, fun) calls fun exactly once on every element of the range and on nothing else, for every chunk size n >= 1, and distinct calls that may run in parallel touch distinct elements.", "quantifier": "every length, every n >= 1, every schedule", "why_tests_cant": "all lengths and chunk sizes cannot be enumerated", "anchors": ["include/libfork/algorithm/for_each.hpp"]}
{"id": "C30", "title": "map writes fun(in[i]) to out[i] for every i", "statement": "map(range, out, n, fun) leaves out[i] = fun(in[i]) for every i and changes no other memory, also when out is the input range.", "quantifier": "every length, every n >= 1, every schedule, in-place or not", "why_tests_cant": "all lengths, chunk sizes and interleavings", "anchors": ["include/libfork/algorithm/map.hpp"]}
{"id": "C31", "title": "fold equals the left fold", "statement": "fold(range, n, bop, proj) returns nothing for an empty range and otherwise the value of the sequential left fold of the projected elements, for every associative bop.", "quantifier": "every length, every n >= 1, every associative operation (not nec. commutative), every schedule", "why_tests_cant": "must hold for all operations and split trees", "anchors": ["include/libfork/algorithm/fold.hpp"]}
{"id": "C32", "title": "scan equals the inclusive prefix scan", "statement": "scan(range, out, n, bop, proj) leaves out[i] = proj(in[0]) bop ... bop proj(in[i]) for every i and touches nothing else, for every associative bop, whether or not forks complete synchronously, also in place.", "quantifier": "every length, every n >= 1, every associative operation, every assignment of sync/async outcomes to forks, every order of parallel siblings", "why_tests_cant": "which sweep runs on which chunk depends on the schedule", "anchors": ["include/libfork/algorithm/scan.hpp"]}
{"id": "C33", "title": "algorithm tasks do not race", "statement": "Tasks of for_each, map, fold and scan that may run in parallel never access the same memory location unless both only read it.", "quantifier": "every length, chunk size and schedule outcome", "why_tests_cant": "race detectors see only executed schedules", "anchors": ["include/libfork/algorithm/for_each.hpp", "include/libfork/algorithm/map.hpp", "include/libfork/algorithm/fold.hpp", "include/libfork/algorithm/scan.hpp"]}
{"id": "C34", "title": "algorithms terminate", "statement": "for_each, map, fold and scan perform finitely many forks/calls for every finite range and every chunk size argument.", "quantifier": "every length and every n, including n <= 0", "why_tests_cant": "non-termination for bad chunk sizes is not observable by a finite test", "anchors": ["include/libfork/algorithm/scan.hpp", "include/libfork/algorithm/for_each.hpp", "include/libfork/algorithm/map.hpp", "include/libfork/algorithm/fold.hpp"]}
{"id": "C35", "title": "eventually is a write-once cell", "statement": "A basic_eventually is empty until the first assignment or stash_exception, afterwards holds exactly that value or exception, never both, and the stored object is destroyed exactly once; the space-saving encodings without a state flag behave the same as those with it, as long as the exception of a void cell has not been moved out (after that they provably differ).", "quantifier": "every sequence of operations and all value/reference/void x exception/no-exception variants", "why_tests_cant": "all operation sequences across all variants", "anchors": ["include/libfork/core/eventually.hpp: basic_eventually"]}
{"id": "C36", "title": "future protocol", "statement": "get delivers the task's result exactly once (a second get throws empty_future), operations on a future without state throw broken_future, get/wait/destructor never return before the task signalled, each acquires the semaphore at most once in total, and a detached future's destructor does not block.", "quantifier": "every sequence of wait/get/detach/move/destroy calls and every position of the task's completion", "why_tests_cant": "blocking behaviour over all call orders", "anchors": ["include/libfork/core/sync_wait.hpp: future"]}
{"id": "C37", "title": "worker initialisation and finalisation are all-or-nothing", "statement": "worker_init either returns a usable context with a constructed stack or throws and leaves the thread uninitialised; finalize undoes it exactly; misuse throws without changing anything.", "quantifier": "every sequence of calls and every failing allocation", "why_tests_cant": "allocation failure inside thread-local initialisation is not injected by tests", "anchors": ["include/libfork/core/ext/tls.hpp: worker_init, finalize"]}
{"id": "C38", "title": "schedule() is safe if the scheduler's schedule throws", "statement": "If sch.schedule(job) throws, lf::schedule destroys the coroutine, frees its memory and leaves the calling thread without stack, as its comment promises.", "quantifier": "every scheduler that may throw from schedule", "why_tests_cant": "the library's schedulers do not throw, so no test reaches the path", "anchors": ["include/libfork/core/sync_wait.hpp: schedule", "include/libfork/core/impl/promise.hpp: ~promise_base, operator delete"]}
{"id": "C39", "title": "just = call, then value or exception", "statement": "`co_await lf::just[f](args)` completes after f, yields f's value or throws f's exception at that point, and leaves no exception behind in the parent.", "quantifier": "every program and interleaving as in C01", "why_tests_cant": "interaction with siblings still running", "anchors": ["include/libfork/core/just.hpp"]}
{"id": "C40", "title": "co_new memory is usable until it goes out of scope", "statement": "The span returned by co_new has room for count objects, is disjoint from every other live frame or co_new block, and its release restores the stack and the frame's recorded stacklet; a failing constructor releases the memory.", "quantifier": "every count and element size, every stack state", "why_tests_cant": "counts near the overflow limit and stacklet boundaries", "anchors": ["include/libfork/core/co_alloc.hpp: stack_allocated", "include/libfork/core/impl/awaitables.hpp: alloc_awaitable"]}
{"id": "C41", "title": "xoshiro jump functions", "statement": "jump() has exactly the effect of 2^128 calls of operator(), long_jump() of 2^192 calls; the subsequences of 2^128 numbers started by different numbers of long jumps and jumps from one non-zero seed do not overlap.", "quantifier": "every 256-bit generator state", "why_tests_cant": "2^128 steps cannot be executed", "anchors": ["include/libfork/schedule/ext/random.hpp: xoshiro::jump, long_jump, jump_impl"]}
{"id": "C42", "title": "xoshiro state never degenerates", "statement": "The transition function of the generator is a bijection on 256-bit states that maps the all-zero state and only it to itself-zero, so a non-zero seed stays non-zero forever (also across jumps), outputs fit in 64 bits, and every non-zero state recurs after exactly 2^256 - 1 calls.", "quantifier": "every 256-bit state, any number of steps", "why_tests_cant": "2^256 states", "anchors": ["include/libfork/schedule/ext/random.hpp: xoshiro::operator()"]}
{"id": "C43", "title": "numa distribution is complete", "statement": "Each worker's neighbour lists contain the worker itself first and every other worker exactly once, whatever the topology, and domain numbers are dense from 0.", "quantifier": "every number of workers and every topology/distance matrix", "why_tests_cant": "all topologies", "anchors": ["include/libfork/schedule/ext/numa.hpp: numa_topology::distribute"]}
{"id": "C44", "title": "a steal attempt only returns stolen work and is bounded", "statement": "numa_context::try_steal returns a task only if a deque steal of a neighbour succeeded, probes every closest neighbour at least once before giving up and makes at most closest + 1024 + 32*neighbours attempts.", "quantifier": "every neighbour configuration, every outcome of the individual attempts and of the random generator", "why_tests_cant": "all random choices", "anchors": ["include/libfork/schedule/impl/numa_context.hpp: try_steal"]}
{"id": "C45", "title": "algorithms propagate exceptions", "statement": "If the user's function, projection or operation throws during for_each, map, fold or scan, the algorithm waits for its parallel tasks and then throws one of the exceptions thrown; if nothing throws it returns normally.", "quantifier": "every length, chunk size, schedule and every choice of the calls that throw", "why_tests_cant": "which calls throw and which forks complete synchronously cannot be enumerated by tests", "anchors": ["include/libfork/algorithm/for_each.hpp", "include/libfork/algorithm/map.hpp", "include/libfork/algorithm/fold.hpp", "include/libfork/algorithm/scan.hpp: rise_sweep", "include/libfork/core/impl/awaitables.hpp: sync_fork_awaitable", "include/libfork/core/impl/promise.hpp: await_transform"]}
{"id": "C46", "title": "lazy_pool: the counters are balanced", "statement": "No worker of a lazy_pool ever decrements the number of searching workers, of active workers or of registered sleepers below zero, so the thresholds that decide about sleeping and waking compare true counts.", "quantifier": "every interleaving of any number of workers, submitters and the destructor", "why_tests_cant": "an underflow needs a particular interleaving", "anchors": ["include/libfork/schedule/lazy_pool.hpp: lazy_vars::thief_work_sleep, lazy_work"]}
{"id": "C47", "title": "a scheduled job is run at most once, by its worker, in order", "statement": "The jobs a pool's worker runs from its submission list are a prefix of the jobs scheduled to it, in the order they were scheduled; none is run twice or by another worker.", "quantifier": "every interleaving of any number of workers and submitters, lazy_pool, busy_pool and unit_pool", "why_tests_cant": "duplicated or reordered jobs need a particular interleaving", "anchors": ["include/libfork/schedule/lazy_pool.hpp: lazy_work", "include/libfork/schedule/busy_pool.hpp: busy_work", "include/libfork/schedule/unit_pool.hpp: work", "include/libfork/core/ext/context.hpp: worker_context::try_pop_all"]}
{"id": "C48", "title": "lazy_pool runs every job scheduled before its shutdown", "statement": "When the destructor of a lazy_pool has returned every job scheduled before it was called has been run.", "quantifier": "every interleaving of workers, submitters and the destructor", "why_tests_cant": "the window is a few instructions wide", "anchors": ["include/libfork/schedule/lazy_pool.hpp: lazy_work, ~lazy_pool"]}
{"id": "C49", "title": "busy_pool and unit_pool run every scheduled job", "statement": "A job scheduled to a worker of a busy_pool or unit_pool before the pool is told to stop is eventually run by that worker.", "quantifier": "every fair infinite execution, any number of workers", "why_tests_cant": "liveness over infinite executions", "anchors": ["include/libfork/schedule/busy_pool.hpp: busy_work", "include/libfork/schedule/unit_pool.hpp: work"]}
{"id": "C50", "title": "the sequential numa strategy uses the fewest packages", "statement": "With numa_strategy::seq workers are placed on the shortest initial run of the machine's packages that has at least as many cores as there are workers, or on all packages.", "quantifier": "every machine (any number and shape of packages, fewer than 2^32 cores) and every number of workers", "why_tests_cant": "all machine shapes", "anchors": ["include/libfork/schedule/ext/numa.hpp: numa_topology::split, count_cores"]}
{"id": "C51", "title": "terminating programs terminate", "statement": "If the programs submitted to a pool end when run serially, then no schedule keeps the workers running tasks forever: every complete execution reaches a point where every sync_wait has returned, with a result the serial program gives.", "quantifier": "every terminating program (not only bounded ones), any number of workers and submitted programs, every infinite schedule, every pattern of failing allocations", "why_tests_cant": "livelock and non-termination are statements about infinite executions", "anchors": ["include/libfork/core/impl/promise.hpp: final_await_suspend", "include/libfork/core/impl/awaitables.hpp: join_awaitable, fork_awaitable, switch_awaitable", "include/libfork/core/impl/utility.hpp", "include/libfork/core/ext/resume.hpp: resume", "include/libfork/core/sync_wait.hpp: sync_wait"]}
{"id": "C52", "title": "the deque is safe on x86", "statement": "With the store buffers of x86 (a store becomes visible to other threads some time after it was made, in order) no steal or pop hands out an item twice, an item never pushed or an indeterminate value; the operations are those of a sequential deque, except that a steal may report empty while pushes are still in the owner's store buffer, and then the deque holds no more items than stores waiting there.", "quantifier": "every interleaving of the owner, any number of thieves and the store buffer, every capacity, growth at any time", "why_tests_cant": "store buffer delays cannot be forced from a test", "anchors": ["include/libfork/core/ext/deque.hpp: deque::push, pop, steal", "include/libfork/core/impl/atomics.hpp: thread_fence_seq_cst"]}
{"id": "C53", "title": "the deque is safe on machines that reorder stores", "statement": "As C52 for machines on which stores without a release fence between them become visible in any order (ARM, POWER).", "quantifier": "every interleaving and every order in which the stores reach memory", "why_tests_cant": "the reordering depends on the machine and its load", "anchors": ["include/libfork/core/ext/deque.hpp: deque::push (m_buf.store), atomic_ring_buf::resize, deque::steal"]}
{"id": "C54", "title": "no data races in the library", "statement": "Whatever programs that follow the rules do, no two threads of the pool and no client that submits a task or waits for a result access the same memory of the runtime (coroutine frames, return objects, counters, exception slots, submission nodes, segmented stacks, the result of a future) without synchronisation, one of them writing and one of them not atomically: the memory orderings in the code are strong enough.", "quantifier": "every program, any number of workers and clients, every interleaving, failing allocations", "why_tests_cant": "a missing release or acquire shows only on some machines under some schedules, and a race detector sees only the executions it is run on", "anchors": ["include/libfork/core/impl/frame.hpp: load_joins, fetch_sub_joins, reset, capture_exception, unsafe_rethrow_if_exception", "include/libfork/core/impl/promise.hpp: final_await_suspend", "include/libfork/core/impl/awaitables.hpp: join_awaitable, fork_awaitable, call_awaitable, context_switch_awaitable", "include/libfork/core/ext/deque.hpp: push, pop, steal", "include/libfork/core/ext/list.hpp: push, try_pop_all", "include/libfork/core/ext/resume.hpp: resume", "include/libfork/core/sync_wait.hpp: schedule, future::get"]}
{"id": "C55", "title": "what user code happens before what", "statement": "The code of one task is sequential whichever workers run it; what a task does before it forks or calls a child, and what a client does before it submits a task, happens before all the child does; what a called child and its descendants do happens before what the parent does after the call; what all children forked or called before a join and their descendants do happens before what the parent does after the join; all a root task and its descendants do happens before the waiting client gets the result.  (Happens-before as in the C++ standard, so effects are visible and there is no race.)", "quantifier": "every program, any number of workers and clients, every interleaving, every position in the trace", "why_tests_cant": "visibility of effects across threads depends on the machine and the schedule", "anchors": ["include/libfork/core/impl/awaitables.hpp: join_awaitable, fork_awaitable, call_awaitable", "include/libfork/core/impl/promise.hpp: final_await_suspend", "include/libfork/core/ext/deque.hpp: push, steal", "include/libfork/core/ext/list.hpp: push, try_pop_all", "include/libfork/core/sync_wait.hpp: schedule, future::get"]}
{"id": "C56", "title": "lazy_pool is safe with the memory orderings of the code", "statement": "Whatever older values the loads in lazy_pool return that the C++ memory model allows for their acquire/release orderings: no counter falls below zero, jobs are run at most once, by the right worker and in order, a worker that sleeps with a job in its list is about to be woken, and once the destructor waits for the threads no worker sleeps and when it returns all have left.", "quantifier": "every interleaving of workers, submitters and the destructor and every value a load may return under the C++ memory model, any number of workers and NUMA domains", "why_tests_cant": "stale reads depend on the machine and the compiler; x86 hides them", "anchors": ["include/libfork/schedule/lazy_pool.hpp: lazy_vars::thief_work_sleep, lazy_work, ~lazy_pool", "include/libfork/schedule/ext/event_count.hpp", "include/libfork/core/ext/list.hpp"]}
{"id": "C57", "title": "while somebody works somebody searches, with the memory orderings of the code", "statement": "C27 for every value which the loads of the thief and active counters may return under the C++ memory model: if a worker runs a task and a worker of some domain sleeps, then a worker of that domain is searching, or somebody is about to wake one.", "quantifier": "every interleaving and every value a load may return under the C++ memory model", "why_tests_cant": "needs store-load reordering, which x86 does not do around atomic read-modify-writes", "anchors": ["include/libfork/schedule/lazy_pool.hpp: lazy_vars::thief_work_sleep, lazy_work"]}
{"id": "C58", "title": "programs on lazy_pool run to the end", "statement": "On a lazy_pool whose users stop submitting at some time and destroy it only when every submitted program is done: if the programs terminate when run serially, then every sync_wait returns, with a result the serial program gives, and the destructor returns; nothing undefined happens on the way, in the pool or in the tasks.", "quantifier": "every set of terminating programs (with forks, calls, joins, moves between workers), any number of workers, NUMA domains and client threads, every fair schedule, spurious wake-ups, failing steals and allocations", "why_tests_cant": "the claim is about all infinite schedules of the sleeping protocol and the tasks together", "anchors": ["include/libfork/schedule/lazy_pool.hpp: lazy_vars::thief_work_sleep, lazy_work, ~lazy_pool", "include/libfork/core/ext/resume.hpp: resume", "include/libfork/core/ext/context.hpp: worker_context::schedule, try_steal, try_pop_all", "include/libfork/core/sync_wait.hpp: sync_wait", "include/libfork/core/impl/awaitables.hpp: context_switch_awaitable"]}
{"id": "C59", "title": "an idle lazy_pool sleeps", "statement": "While a lazy_pool has no work it uses no processor time: once nothing more is submitted and nothing is left to steal, and until the pool is destroyed, all its worker threads go to sleep and stay asleep; a worker that the operating system wakes up for no reason goes back to sleep.  The same holds once all submitted programs are done.", "quantifier": "every fair infinite schedule, any number of workers, NUMA domains and submitting threads, every history before the work ends, any terminating programs", "why_tests_cant": "that a thread eventually stops spinning is a statement about all infinite schedules", "anchors": ["include/libfork/schedule/lazy_pool.hpp: lazy_pool (documentation), lazy_vars::thief_work_sleep, lazy_work", "include/libfork/schedule/ext/event_count.hpp: prepare_wait, cancel_wait, wait, notify_one, notify_all"]}
{"id": "C60", "title": "programs on busy_pool and unit_pool run to the end", "statement": "On a busy_pool or unit_pool used as documented: if the submitted programs terminate when run serially and submissions end, then every sync_wait returns, with a result the serial program gives, and the destructor returns once it is called; nothing undefined happens on the way, whenever the pool is destroyed.", "quantifier": "every set of terminating programs, any number of workers and client threads, every fair schedule, failing steals and allocations, the destructor called at any time after which nobody submits and no task moves to another worker", "why_tests_cant": "the claim is about all infinite schedules of the worker loops and the tasks together", "anchors": ["include/libfork/schedule/busy_pool.hpp: busy_work, busy_pool::schedule, ~busy_pool", "include/libfork/schedule/unit_pool.hpp: work, schedule, ~unit_pool", "include/libfork/core/ext/resume.hpp: resume", "include/libfork/core/ext/context.hpp: worker_context::schedule, try_steal, try_pop_all", "include/libfork/core/sync_wait.hpp: sync_wait"]}
{"id": "C61", "title": "the destructors of busy_pool and unit_pool finish all work", "statement": "When the destructor of a busy_pool or unit_pool returns, every task ever submitted to it, detached or not, and all its descendants are finished, provided that once the destructor was called nobody submits to the pool and no task moves to another of its workers (for unit_pool: provided nobody submits from outside).", "quantifier": "every set of programs (terminating or not), any number of workers, every schedule, the destructor called at any time, also before a task has started", "why_tests_cant": "whether a task can be left behind depends on the race between the stop flag, the second look at the lists, and steals", "anchors": ["include/libfork/schedule/busy_pool.hpp: busy_work (drain loop), ~busy_pool, documentation", "include/libfork/schedule/unit_pool.hpp: work (drain loop), ~unit_pool, documentation"]}
{"id": "C62", "title": "the contexts of a pool outlive their users", "statement": "Between the constructor and the destructor of a pool, no thread ever uses a worker's context before it is constructed or after it is destroyed, nor the block the workers share after it is freed: not a thief, not a task that moves to another worker, not a client that submits; when the destructor has returned all threads are gone and everything is freed.", "quantifier": "every number of workers, every schedule of constructor, workers, clients and destructor, all three pools; calls of others to schedule return before the destructor is called", "why_tests_cant": "depends on the order in which threads pass the two latches", "anchors": ["include/libfork/schedule/busy_pool.hpp: busy_vars, busy_work, busy_pool, ~busy_pool", "include/libfork/schedule/lazy_pool.hpp: lazy_work, lazy_pool, ~lazy_pool", "include/libfork/schedule/unit_pool.hpp", "include/libfork/schedule/impl/numa_context.hpp: init_worker_and_bind, finalize_worker, try_steal"]}
{"id": "C63", "title": "the constructor of a pool is all or nothing and does not hang", "statement": "The constructor of a pool with at least one worker ends: it returns a pool all of whose workers have started and whose contexts() are the workers' contexts, or throws and leaves nothing behind, or ends the program.", "quantifier": "every number of workers, every fair schedule, every failing allocation or thread creation", "why_tests_cant": "start-up is a race between the constructor and the workers; failures at each point", "anchors": ["include/libfork/schedule/busy_pool.hpp: busy_pool", "include/libfork/schedule/lazy_pool.hpp: lazy_pool", "include/libfork/schedule/unit_pool.hpp: unit_pool"]}
{"id": "C64", "title": "tasks can come from another pool", "statement": "A task may move to a worker of another pool; when all work is done that pool can be destroyed.", "quantifier": "every schedule of the two pools", "why_tests_cant": "the window is a few instructions wide", "anchors": ["include/libfork/core/ext/context.hpp: worker_context::schedule", "include/libfork/core/scheduler.hpp: resume_on", "include/libfork/schedule/busy_pool.hpp: ~busy_pool"]}
{"id": "C65", "title": "pools can be moved", "statement": "busy_pool and lazy_pool are movable: after a move the target is the pool, and both objects can be destroyed; a pool can be assigned to.", "quantifier": "every program that constructs, moves, assigns, uses and destroys pools", "why_tests_cant": "every sequence of operations; the failure is undefined behaviour", "anchors": ["include/libfork/schedule/busy_pool.hpp: busy_pool(busy_pool &&), operator=, ~busy_pool", "include/libfork/schedule/lazy_pool.hpp: lazy_pool(lazy_pool &&), operator=, ~lazy_pool"]}
{"id": "C66", "title": "a parallel execution runs the tasks of a serial run and no others", "statement": "When a task has ended, the tree of all tasks below it, with what each of them was called with, what it returned or threw and the order in which its parent forked or called its children, is the call tree of a serial execution in which every fork and call is an ordinary function call: no task is dropped, run twice, or run with another result. A program that does not look at schedule-dependent facts has the same call tree in every execution.", "quantifier": "every program that follows the rules, any number of workers, every schedule, failing allocations", "why_tests_cant": "a lost or duplicated task shows up only under particular interleavings of forks, steals and joins", "anchors": ["include/libfork/core/impl/promise.hpp: final_suspend, await_transform", "include/libfork/core/impl/awaitables.hpp: fork_awaitable, call_awaitable, join_awaitable", "include/libfork/core/ext/resume.hpp: resume"]}
{"id": "C67", "title": "for_each on a pool visits each element exactly once", "statement": "sync_wait(pool, for_each, range, n, fn, proj) with an async fn returns if the user's functions terminate; if it returns normally then fn was called exactly once for each projected element and every call returned; if it throws, the exception is one of these calls, of the projection, or an allocation failure, and no element was visited twice.", "quantifier": "every range, chunk size n > 0, function and projection (ordinary or async), any number of workers, every fair schedule, failing allocations; lazy_pool, busy_pool and unit_pool", "why_tests_cant": "all ranges times all schedules of the pool, the runtime and the algorithm together", "anchors": ["include/libfork/algorithm/for_each.hpp: for_each_overload", "include/libfork/core/just.hpp: call_just", "include/libfork/core/sync_wait.hpp: sync_wait", "include/libfork/schedule/lazy_pool.hpp", "include/libfork/schedule/busy_pool.hpp", "include/libfork/schedule/unit_pool.hpp"]}
{"id": "C68", "title": "fold on a pool returns the left fold", "statement": "sync_wait(pool, fold, range, n, bop, proj) with an associative bop returns the left fold of the projected range (nothing for an empty range), or throws what one of the user's functions threw or an allocation failure; bop is an ordinary function or n is 1.", "quantifier": "every range, chunk size n > 0, associative operation and projection, any number of workers, every fair schedule, failing allocations; lazy_pool, busy_pool and unit_pool", "why_tests_cant": "all ranges times all schedules of the pool, the runtime and the algorithm together", "anchors": ["include/libfork/algorithm/fold.hpp: fold_overload_impl, fold_overload", "include/libfork/core/just.hpp: call_just", "include/libfork/core/sync_wait.hpp: sync_wait", "include/libfork/schedule/lazy_pool.hpp", "include/libfork/schedule/busy_pool.hpp", "include/libfork/schedule/unit_pool.hpp"]}
{"id": "C69", "title": "memory grows at most linearly with the number of workers", "statement": "At any time the frames of all tasks that exist occupy at most P times what the frames of a serial run occupy at their peak, P being the number of workers, plus once more that amount for each task that sits in a submission queue (submitted and not started, or rescheduled and not yet resumed). Tasks without children are at most P, not counting queued ones. In particular a for_each or fold over 2^k elements has at most k + 2 tasks per worker at a time, apart from the user's functions.", "quantifier": "every program that follows the rules, with any sizes of frames, any number of workers, every schedule and every moment of it, failing allocations", "why_tests_cant": "the peak depends on the schedule; a test sees the peak of the schedules it happens to run", "anchors": ["README.md: linear memory scaling", "include/libfork/core/impl/awaitables.hpp: fork_awaitable, join_awaitable, context_switch_awaitable", "include/libfork/core/impl/promise.hpp: final_await_suspend", "include/libfork/core/ext/resume.hpp: resume", "include/libfork/algorithm/for_each.hpp", "include/libfork/algorithm/fold.hpp"]}
{"id": "C70", "title": "the runtime works on the real deques", "statement": "All that is promised of the runtime holds when push, pop and steal of the work-stealing deques are not atomic but executed one memory access at a time, interleaved with everything the other workers do: every such execution has the history of an execution with atomic deques, tasks are never lost or duplicated between a deque and the runtime, results are those of the serial elision, joins wait, and no assertion fails in either part.", "quantifier": "every program that follows the rules, any number of workers, any initial capacity of the deques, every interleaving of the memory accesses of owners and thieves with the runtime, failing allocations (also of a bigger buffer in the middle of a push)", "why_tests_cant": "correctness of the composition depends on all interleavings of two concurrent parts; unit tests of each part alone do not see it", "anchors": ["include/libfork/core/ext/deque.hpp: push, pop, steal, empty", "include/libfork/core/ext/context.hpp: worker_context, try_steal, pop, push", "include/libfork/core/impl/awaitables.hpp: fork_awaitable", "include/libfork/core/impl/promise.hpp: final_await_suspend", "include/libfork/core/ext/resume.hpp: resume"]}
{"id": "C71", "title": "a waiting caller is released although deque operations take many steps", "statement": "If the submitted programs terminate serially and the workers run the loop of a pool, then every caller waiting for a program is released exactly once and reads a result the serial elision allows, also when push, pop and steal are executed one memory access at a time: no interleaving of owners and thieves keeps a deque operation, and with it a program, from finishing. No steal has to succeed for that, and nothing is assumed about which victims are chosen.", "quantifier": "every program that terminates serially, any number of workers, any capacity, every infinite interleaving of memory accesses in which each worker with something to do makes steps again and again and looks at its submission list after boundedly many steals", "why_tests_cant": "an infinite execution cannot be observed; a test that ends has only seen one schedule", "anchors": ["include/libfork/core/ext/deque.hpp: push, pop, steal", "include/libfork/core/ext/context.hpp: try_steal, try_pop_all", "include/libfork/core/ext/resume.hpp: resume", "include/libfork/schedule/busy_pool.hpp: work", "include/libfork/schedule/ext/numa_context.hpp: try_steal", "include/libfork/core/sync_wait.hpp: sync_wait"]}
{"id": "C72", "title": "deque operations are wait-free; memory and copying are bounded by the items held", "statement": "A push, pop or steal that has been called returns after a fixed number of its caller's own steps (6 after the call for push and steal, 5 for pop), whatever the other threads do meanwhile, and no step ever waits. The buffers of a deque, including replaced ones kept for slow thieves, have together at most four slots per item the deque held at its fullest (or the initial capacity), and growing copies at most two items per item held, hence at most two per completed push.", "quantifier": "every initial capacity, every sequence of operations, every interleaving of the owner with any number of thieves, failing allocations of bigger buffers", "why_tests_cant": "a bound on the steps of one thread against all behaviours of the others quantifies over all schedules; peak memory depends on the schedule", "anchors": ["include/libfork/core/ext/deque.hpp: push, pop, steal, atomic_ring_buf::resize"]}
{"id": "C73", "title": "tasks work whichever value of the join counter and the exception flag they read", "statement": "The C++ memory model lets the load with which a join tests whether all children are done return an outdated value. Whatever value the load returns, the join never goes on before all children are done, and a join that reads an outdated value after all children are done goes on one step later, exactly as if it had read the last value. The same holds for the load with which a sync fork or an eager call looks for an exception: if it misses one, the exception stays with the task and the join throws it. All guarantees on results, exactly-once resumption, termination, data races and memory hold with such loads.", "quantifier": "every program that follows the rules, any number of workers, every schedule, every value the counter has had since the last join of the task, every value the flag has had since the task last cleared it", "why_tests_cant": "which value a load returns depends on the hardware; on common hardware outdated values are too rare to be met by a test", "anchors": ["include/libfork/core/impl/awaitables.hpp: join_awaitable::await_ready, await_suspend, take_stack_reset_frame, sync_fork_awaitable::await_resume, eager_call_awaitable::await_resume", "include/libfork/core/impl/frame.hpp: load_joins, fetch_sub_joins, reset, atomic_has_exception, capture_exception", "include/libfork/core/impl/promise.hpp: final_await_suspend"]}
{"id": "C74", "title": "the deque under the C++ memory model", "statement": "With the orderings in the code, under the C++ memory model (threads may see outdated values of all indices, the buffer and the slots, and see stores to different locations in different orders), no push, pop or steal has undefined behaviour; every value handed out was pushed, and as often; nothing is lost; pop reports empty only if there is no item; and every history is that of a sequential deque, except that a steal may report empty too early. This is false of the code once the buffer grows; it holds until then, and always if the new buffer is published with memory_order_release. No other ordering can be dropped.", "quantifier": "all initial capacities 2^k, all numbers of thieves, all values and sequences of operations, all interleavings and all messages the memory model lets each load return, all points where an allocation fails", "why_tests_cant": "tests run on the ordering the hardware and the compiler happen to give; the outdated reads occur rarely and on x86 most of them never", "anchors": ["include/libfork/core/ext/deque.hpp:push", "include/libfork/core/ext/deque.hpp:pop", "include/libfork/core/ext/deque.hpp:steal", "include/libfork/core/impl/atomics.hpp:thread_fence_seq_cst"]}
{"id": "C75", "title": "programs on lazy_pool with the real deques run to the end", "statement": "On a lazy_pool used as documented (nobody submits after some time; it is destroyed only when every submitted program is done) whose workers push, pop and steal on the lock-free deques, one access to shared memory at a time: nothing undefined happens, in the pool, the tasks or the deques; what happens is what would happen if the deques were atomic; and if the programs terminate when run serially, every sync_wait returns with a result the serial program gives, and the destructor returns.", "quantifier": "every set of terminating programs, any number of workers, NUMA domains, client threads and steals per attempt, any initial capacity of the deques, every fair interleaving of single memory accesses, every choice of victims, spurious wake-ups, failing steals and allocations", "why_tests_cant": "the claim is about all infinite interleavings of the sleeping protocol, the deques and the tasks together", "anchors": ["include/libfork/schedule/lazy_pool.hpp: lazy_vars::thief_work_sleep, lazy_work, ~lazy_pool", "include/libfork/schedule/impl/numa_context.hpp: try_steal", "include/libfork/core/ext/deque.hpp: push, pop, steal", "include/libfork/core/ext/resume.hpp: resume", "include/libfork/core/sync_wait.hpp: sync_wait"]}
{"id": "C76", "title": "programs on busy_pool and unit_pool with the real deques run to the end", "statement": "On a busy_pool or unit_pool whose workers push, pop and steal on the lock-free deques, one access to shared memory at a time: nothing undefined happens, in the pool, the tasks or the deques, whenever the pool is destroyed; what happens is what would happen if the deques were atomic. If the pool is used as documented (once the destructor was called nobody submits and no task moves to another worker; on unit_pool: nobody submits from outside), submissions end and the programs terminate when run serially, every sync_wait returns with a result the serial program gives and the destructor returns; when it has returned every task ever submitted is finished and no task is left in memory.", "quantifier": "every set of programs, any number of workers, client threads and steals per attempt, any initial capacity of the deques, every (fair, where something is said to return) interleaving of single memory accesses, every choice of victims, failing steals and allocations, the destructor called at any time", "why_tests_cant": "the claim is about all infinite interleavings of the worker loops, the deques and the tasks together, with the destructor at any point", "anchors": ["include/libfork/schedule/busy_pool.hpp: busy_work, ~busy_pool, documentation", "include/libfork/schedule/unit_pool.hpp: work, ~unit_pool", "include/libfork/schedule/impl/numa_context.hpp: try_steal", "include/libfork/core/ext/deque.hpp: push, pop, steal", "include/libfork/core/ext/resume.hpp: resume", "include/libfork/core/sync_wait.hpp: sync_wait"]}
{"id": "C77", "title": "the runtime uses the segmented stacks correctly", "statement": "When the workers allocate coroutine frames on the library's segmented stacks: every frame is given back to the stack it came from, in reverse order of allocation there, although tasks are stolen, resumed on other workers and move between them; no assertion on the stacks fails and a stack is destroyed only when it is empty. The frame of each task that exists lies aligned inside one live block of memory and no two frames share a byte. The stacks change nothing else: what the tasks do is what they would do if allocation were abstract, except where malloc refuses: then a fork or call throws in the parent, a submission throws, and a worker that must give up its stack terminates the program. At any time at most three blocks exist for each live task and two for each worker, and when no task is left destroying the workers' stacks frees all memory.", "quantifier": "every set of programs, any number of workers, every schedule and every choice of stolen tasks, every frame size up to 2^64 - 4192 bytes, every sequence of answers of malloc, including refusals", "why_tests_cant": "which stack a frame lies on depends on the history of steals and joins, and a violation corrupts memory only under particular schedules and block boundaries", "anchors": ["include/libfork/core/impl/stack.hpp: stack, stacklet", "include/libfork/core/impl/promise.hpp: operator new, operator delete, final_await_suspend", "include/libfork/core/impl/awaitables.hpp: context_switch_awaitable, fork_awaitable, join_awaitable", "include/libfork/core/ext/resume.hpp: resume", "include/libfork/core/sync_wait.hpp: schedule", "include/libfork/core/ext/tls.hpp: worker_init, worker_finalize"]}
{"id": "C78", "title": "a task does not outlive its future unless it was detached", "statement": "When no future refers to the result of a scheduled task any more, the task has finished, unless the client called detach() on its future. So a client that never detaches and whose futures are all destroyed has no task running, and may let go of what the tasks use.", "quantifier": "every sequence of schedule, move construction, move assignment, wait, get, detach and destruction by any number of client threads, every interleaving with the tasks", "why_tests_cant": "the claim is about every history of operations on any number of futures, and whether a task is still running when a handle goes away depends on timing", "anchors": ["include/libfork/core/sync_wait.hpp: future, ~future, operator=, detach"]}
{"id": "C79", "title": "stealing and stack memory work together", "statement": "When tasks are kept in the library's work-stealing deques and their coroutine frames on its segmented stacks, both at once and with the accesses to shared memory interleaved in any way: no assertion fails and nothing undefined happens, in the deques, in the stacks or between them, in particular while an owner and thieves race for the last task of a deque. Every task ends with an outcome its serial execution allows. The frame of each task that exists lies aligned inside one live block, no two frames share a byte, and a frame never moves, whichever worker runs the task. Memory never gets in the way of a step, except where malloc refuses. When no task is left, destroying the workers' stacks frees all memory.", "quantifier": "every set of programs, any number of workers, every interleaving of the shared-memory accesses of pushes, pops and steals, every initial capacity of the deques, every frame size up to 2^64 - 4192 bytes, every sequence of answers of malloc, including refusals when a deque must grow", "why_tests_cant": "who frees or adopts which stack depends on which access of a pop or steal comes first; a test sees few of these orders and a violation corrupts memory silently", "anchors": ["include/libfork/core/ext/deque.hpp: push, pop, steal", "include/libfork/core/impl/stack.hpp: stack, stacklet", "include/libfork/core/impl/promise.hpp: operator new, operator delete, final_await_suspend", "include/libfork/core/impl/awaitables.hpp: fork_awaitable, join_awaitable, context_switch_awaitable", "include/libfork/core/ext/resume.hpp: resume"]}
{"id": "C80", "title": "busy_pool and unit_pool from construction to destruction, memory included", "statement": "On a busy_pool or unit_pool whose workers use the lock-free deques and allocate coroutine frames on the segmented stacks: nothing undefined happens in the pool, the tasks, the deques or the stacks, whenever the pool is destroyed and whatever malloc answers; frames lie in live memory and apart from each other; a submission for which malloc refuses throws and submits nothing; memory gets in the way of nothing else, except that a worker that must give up its stack terminates the program if malloc refuses. If the pool is used as documented, submissions end and the programs terminate when run serially, every sync_wait returns with a result the serial program gives and the destructor returns; then everything submitted is finished and the workers have given back all memory.", "quantifier": "every set of programs, any number of workers, client threads and steals per attempt, any initial capacity of the deques, every frame size up to 2^64 - 4192 bytes, every sequence of answers of malloc, every (fair, where something is said to return) interleaving of single memory accesses, the destructor called at any time", "why_tests_cant": "the claim is about all infinite interleavings of the worker loops, the deques, the stacks and the tasks together", "anchors": ["include/libfork/schedule/busy_pool.hpp: busy_work, ~busy_pool", "include/libfork/schedule/unit_pool.hpp: work, ~unit_pool", "include/libfork/core/ext/deque.hpp: push, pop, steal", "include/libfork/core/impl/stack.hpp: stack, stacklet", "include/libfork/core/impl/promise.hpp: operator new, operator delete, final_await_suspend", "include/libfork/core/sync_wait.hpp: schedule, sync_wait", "include/libfork/core/ext/tls.hpp: worker_init, finalize"]}
{"id": "C81", "title": "lazy_pool from construction to destruction, memory included", "statement": "On a lazy_pool whose workers use the lock-free deques and allocate coroutine frames on the segmented stacks: nothing undefined happens in the pool, the tasks, the deques or the stacks, whenever the pool is destroyed and whatever malloc answers; frames lie in live memory and apart from each other; a submission for which malloc refuses throws and submits nothing; memory gets in the way of nothing else, except that a worker that must give up its stack terminates the program if malloc refuses. If the pool is used as documented and the programs terminate when run serially, every sync_wait returns with a result the serial program gives, the destructor returns, and in the end the workers have given back all memory.", "quantifier": "every set of programs, any number of workers, NUMA domains, client threads and steals per attempt, any initial capacity of the deques, every frame size up to 2^64 - 4192 bytes, every sequence of answers of malloc, every (fair, where something is said to return) interleaving of single memory accesses, spurious wake-ups", "why_tests_cant": "the claim is about all infinite interleavings of the sleeping protocol, the deques, the stacks and the tasks together", "anchors": ["include/libfork/schedule/lazy_pool.hpp: lazy_work, ~lazy_pool", "include/libfork/core/ext/deque.hpp: push, pop, steal", "include/libfork/core/impl/stack.hpp: stack, stacklet", "include/libfork/core/impl/promise.hpp: operator new, operator delete, final_await_suspend", "include/libfork/core/sync_wait.hpp: schedule, sync_wait", "include/libfork/core/ext/tls.hpp: worker_init, finalize"]}
{"id": "C82", "title": "any number of threads may submit to a pool", "statement": "Any number of threads outside a pool may submit tasks to one busy_pool or lazy_pool at the same time without a data race. (False of the code: submitting draws from a random number generator that belongs to the pool and is not protected. True if the clients serialise their submissions with a mutex, or if one thread submits to the pool and all others to contexts of workers.)", "quantifier": "any number of threads, every sequence of submissions by each of them, every number of draws per submission, every interleaving of the accesses to the generator", "why_tests_cant": "a data race shows only if two submissions overlap within a few instructions, and need not show then; the claim is about all interleavings", "anchors": ["include/libfork/schedule/busy_pool.hpp: schedule", "include/libfork/schedule/lazy_pool.hpp: schedule", "include/libfork/schedule/ext/random.hpp: xoshiro::operator()", "include/libfork/core/ext/context.hpp: schedule"]}
{"id": "C83", "title": "a deque gives back its memory and survives running out of it", "statement": "A deque never loses memory: whatever is pushed, popped and stolen, its destructor frees exactly the blocks the deque took, each once; a push either adds its item or throws std::bad_alloc, and then, as when the constructor throws, nothing has changed and no memory is lost; a push throws only if the deque is full and memory is refused, and it never calls std::terminate. (False of the constructor: if its last allocation is refused the buffer is never freed. The rest is true.)", "quantifier": "every capacity, every size of elements, every sequence of pushes, pops and steals, every pattern of refused allocations, everything else that is allocated and freed meanwhile", "why_tests_cant": "tests do not refuse the n-th allocation for every n; that 64 reserved slots are enough for any number of growths is a statement about sizes no test reaches", "anchors": ["include/libfork/core/ext/deque.hpp: deque::deque, push, pop, steal, ~deque, atomic_ring_buf::resize"]}
