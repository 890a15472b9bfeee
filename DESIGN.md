# Formal model of libfork in Rocq (Coq 8.16.1)

All code paths below are relative to `/repo/include/libfork/`, all Coq files to
`rocq/theories/`.

## 1. Layout

For each component `X` there are up to four kinds of file:

* `XModel.v`   – the model: total, computable Gallina, no proofs.  Every
  definition cites the lines of the code it models and says where it simplifies.
* `XSpec.v`    – a small specification that does not use the model's helpers
  (serial semantics, sequential deque, FIFO queue, legal call sequences, …).
* `XProofs.v`, `XInv.v`, `XStep*.v`, `XLive*.v`, … – invariants and lemmas.
* `Prop_X.v`   – only the property theorems, `Example`s showing that the
  hypotheses are met by concrete non-trivial cases, and `Print Assumptions`.

To read a property: its row in section 4, then `Prop_X.v`, then `XSpec.v`, then
(to check that the model is the code) `XModel.v`.

Theorems whose name ends in `_refuted` prove that a statement is FALSE of the
code (section 5).  Theorems whose name ends in `_partial` prove less than the
English property; section 4 says what is missing.

## 2. Components

| component | code | properties | model | proof |
|---|---|---|---|---|
| Runtime | `core/impl/promise.hpp`, `awaitables.hpp`, `frame.hpp`, `return.hpp`, `core/ext/resume.hpp`, `context.hpp`, `core/scheduler.hpp`, `core/just.hpp`, `sync_wait.hpp` | C01–C13, C39, C51, C66, C69, C73 | small-step machine: any number of workers, each with a program counter, an abstract deque, an inbox and a current stack; frames with 16-bit counters; programs are arbitrary trees of fork/call/join/switch/stash/return/just whose continuations depend on results; every `LF_ASSERT` on the modelled paths and every access to a dead frame leads to a distinct `Undef` | one inductive invariant over all interleavings; history invariant relating the run to a big-step serial semantics; explicit runs for the refutations |
| Stack | `core/impl/stack.hpp`, `core/co_alloc.hpp`, `alloc_awaitable` | C14–C18, C40 | heap of blocks at addresses chosen by an adversarial malloc that may fail; stacklet records; sizes in N with explicit `mod 2^64` | invariant over all legal histories |
| Deque | `core/ext/deque.hpp` | C19–C21, C72 | one step per atomic access, any number of thieves, ring buffers with masks, growth, retained garbage | simulation of a sequential deque (list) at linearization points |
| Fine | Runtime and Deque together | C70, C71 | the Runtime machine on the deques of the Deque machine; any interleaving of their steps | simulation by the Runtime machine; the theorems about histories carry over |
| Weak | `core/ext/deque.hpp` | C52, C53 | the Deque model with the owner's stores delayed in a store buffer, first-in first-out (x86) or reordered where no release fence separates them | invariant relating memory, store buffer and the owner's view, for which the Deque invariant holds |
| View | `core/ext/deque.hpp`, `core/impl/atomics.hpp` | C74 | the deque access by access on a view machine for the C++ memory model: all messages of m_top, m_bottom, m_buf and every slot of every buffer are kept, each load may return any message its thread's view allows; release and seq_cst fences, acquire and consume loads as in the code, each switchable | invariant: whoever reads a store to m_bottom from after the global fence view knows, through the view the store carries, the newest message of every slot it may still take |
| Sync | the code of Runtime, and `push`/`pop`/`steal` of `deque.hpp`, `list.hpp`, `sync_wait.hpp` | C54, C55 | every transition of the Runtime machine emits the memory it touches, in order, with the memory orderings of the code (`SyncModel.v`); happens-before and data races are defined as in the C++20 standard over such traces (`SyncSpec.v`: release sequences, fences, synchronises-with) | the views of all threads and of all atomic objects form a ghost state; an invariant says who must know each access to each location (the holder of the task, all its forked children together with the join counter, ...), by induction over executions |
| LazyWeak | `schedule/lazy_pool.hpp`, `event_count.hpp`, `list.hpp` | C56, C57 | the transitions of LazyModel on a view-based release-acquire memory (`LazyWeakModel.v`): every write is a read-modify-write, the loads of `thief`, `active` and `stop` return any message the thread is not bound to have passed | the invariants of LazyInv carry over as loads only move the program counter; that nobody sleeps through the shutdown needs that who registers at the event after the last announcement has seen the stop flag; refinement to LazyModel for newest values |
| Whole | `schedule/lazy_pool.hpp` with the code of Runtime | C58, C59 | LazyModel and Runtime run together (`WholeModel.v`): the calls of the loop to try_pop_all, try_steal and resume are the runtime's steps, a task that moves to another worker pushes and notifies as `context.hpp:70-78` | each execution projects to one of either model (`WholeInv.v`); while work is left some thread makes a step of the runtime again and again (`WholeEsc.v`, `WholeProofs.v`, from the liveness of the pool), so C51's order decreases until nothing is left; then the rest is a fair execution of the pool without work |
| Deep | Whole on the deques of Deque | C75 | the loop of lazy_pool drives the Fine machine (`DeepModel.v`): try_steal is a sequence of at most K steals, each several accesses; resume is the worker's accesses until it has nothing left | simulation by Whole in which every other step lowers a rank of the worker that makes it, so fairness carries over |
| BDeep | BWhole on the deques of Deque | C76 | the loops of busy_pool and unit_pool drive the Fine machine (`BDeepModel.v`), as in Deep | as for Deep, by BWhole |
| RStack | Runtime on the stacks of Stack | C77 | every step of the Runtime machine also runs the calls to `tls::stack()` of the functions it models, on the Stack model (`RStackModel.v`); frame sizes and malloc's answers are arbitrary | the abstract stacks of Runtime and the ghost stacks of Stack are related, worker by worker (`rel` in `RStackProofs.v`) |
| FStack | Runtime on the deques of Deque and the stacks of Stack | C79 | a step of Fine that completes a step of the runtime also runs its stack code, as in RStack (`FStackModel.v`) | the simulation of Fine by Runtime is refined to say which label each step has; then every execution is one of RStack |
| BStack | busy_pool and unit_pool, runtime, deques and stacks | C80 | a step of BDeep runs the stack code that FStack has for the step of Fine it makes (`BStackModel.v`) | without memory an execution is one of BDeep, without the pool one of FStack; C76 and C79 are put together |
| LStack | lazy_pool, runtime, deques and stacks | C81 | the same on Deep (`LStackModel.v`) | the same with C75 and C79 |
| Submit | clients that call schedule() of a pool | C82 | any number of threads, one step for each access to the state of the pool's generator; optionally under a mutex of the clients (`SubmitModel.v`) | an invariant that orders all accesses by happens-before through the mutex; a counterexample without one |
| DMem | the allocations of `core/ext/deque.hpp` | C83 | constructor, push, pop, steal and destructor as atomic operations on a heap of blocks; every allocation may be refused; other code allocates and frees in between (`DMemModel.v`) | invariant: the heap is the blocks of the deque and those of others, disjoint; the capacity is at least 2 to the number of replaced buffers |
| BWhole | `schedule/busy_pool.hpp`, `unit_pool.hpp` with the code of Runtime | C60, C61 | BusyModel and Runtime run together (`BWholeModel.v`), as Whole | as Whole |
| Life | constructors, `busy_work`/`lazy_work` outside the loop, destructors; `impl/numa_context.hpp`; `core/ext/context.hpp` (schedule) | C62–C65 | each access to a context, the shared block or a latch is a step; the loops are left open (`LifeModel.v`); pool objects and their moves (`PoolMoveModel.v`) | invariant; rank under fairness; refutations |
| AlgoTask | `algorithm/{for_each,fold}.hpp`, `core/just.hpp` | C67, C68 | the algorithms as tasks of the Runtime machine (`AlgoTaskModel.v`), so that they can be submitted to the pools of Whole and BWhole; ranges are lists of integers | the call tree of an execution is one of a serial run (C66), and serial runs are analysed by induction over the recursion |
| List | `core/ext/list.hpp` | C22 | steps of push (load, CAS) and of pop-all (exchange, reversal) | simulation of a FIFO queue |
| Event | `schedule/ext/event_count.hpp` | C23–C25 | packed 64-bit word with explicit `mod 2^64`, blocked threads, spurious wake-ups | invariants; fairness argument for C23 |
| Lazy, Busy | `schedule/lazy_pool.hpp`, `busy_pool.hpp`, `unit_pool.hpp` | C26–C28, C46–C49 | worker loops at single shared accesses, submitters, destructor | invariants; ranking functions over fair infinite executions |
| Algo | `algorithm/{for_each,map,fold,scan}.hpp` | C29–C34, C45 | the recursive coroutines as fork-join programs over a memory; `ready` results and interleavings are adversarial | program logic with disjoint footprints, induction over the recursion |
| Eventually | `core/eventually.hpp` | C35 | the four representations of the cell, construction/destruction counted | induction over call sequences |
| Future | `core/sync_wait.hpp` | C36, C78 | clients, futures, root tasks, reference counts, semaphores | invariant over all interleavings |
| Tls | `core/ext/tls.hpp`, `sync_wait.hpp` (schedule), `unique_frame.hpp` | C37, C38 | flags, context and stack objects per thread on top of the Stack model | invariant; refutations |
| Random | `schedule/ext/random.hpp` | C41, C42 | 64-bit words in `N` | linear algebra over GF(2), order of a matrix from the factorization of 2^256−1 (primality certificates) |
| Numa | `schedule/ext/numa.hpp`, `schedule/impl/numa_context.hpp` | C43, C44, C50 | hwloc as an oracle, trees and lists, weights as rationals | permutation/partition proofs |

## 3. Trusted base

* Coq 8.16.1's kernel, including its virtual machine (`vm_compute`); `coqchk`
  re-checks everything without the virtual machine.
* `Print Assumptions` says "Closed under the global context" for every theorem in
  every `Prop_X.v`: no axiom is used, neither ours nor the library's.
* `coqchk -o` lists seven constants `Coq.ssr.ssrunder.Under_rel.*` as axioms
  of the loaded library: the opaque module type of the standard library's
  `ssrunder`, loaded with std++'s use of `ssreflect`.  No theorem depends on them.
* Libraries used: Coq's standard library and std++.  No plugin, functor, module
  type, `Program` obligation or `Equations`.
* The reading of the C++ source.  Nothing was compiled or run.
* Memory model: atomic steps are interleaved (sequential consistency) unless a row of
  section 4 says otherwise.

### Modelled

All functions with run-time behaviour in the files of section 2, line by line, with
the simplifications stated at each definition.  The main ones:

* In the Runtime model the deque, the submission list and the segmented stack are
  the abstract objects that C19–C22 and C14–C17 prove the code implements.  In Fine the deques, in RStack
  the stacks, and in FStack both are the real ones.
* A C++ coroutine body is a tree of awaits; local computation between awaits is not
  observable by other tasks except through results, so it is folded into the
  continuation functions.
* Algorithms run on the fork-join semantics that C01–C12 establish.
* In the pool models running a task is one step that may take any time and
  `try_steal` is a nondeterministic choice.  In Whole and BWhole running a task is many steps on atomic deques;
  in Deep (`lazy_pool`) and BDeep (`busy_pool`, `unit_pool`) the deques are the real ones and `try_steal` is made of their steps.

### Not modelled

* The C++ weak memory model in full.  C54 and C55 use the standard's happens-before, but over
  interleavings in which an atomic read takes the value last written to the object (for
  read-modify-writes this is what the standard requires; for the plain loads of
  `m_top` and `m_bottom` it is an assumption).  The plain load of `m_join` in a join, and that of
  `m_except` after a sync fork or an eager call, may return any older value of the scope: the step
  `LStale` (`RuntimeModel.v`) is part of every execution of the runtime, of the runtime on the real deques and
  of the pools, and C73 shows that it covers all values the loads may return.  For the deque C19–C21 assume sequential consistency; C52 and C53 model
  the owner's store buffer (the thieves' loads are in program order, stores that reached
  memory are seen by all); C74 models the deque on a view machine, where every load may return outdated values. The view
  machine has no load buffering (a load never returns a value stored later in program order through a cycle of threads),
  which the standard does not forbid and RC11 does.  The orderings of the event count and of
  lazy_pool's counters are modelled in C56 and C57 (release-acquire views); the event count by itself (C23–C25) and the other
  pools are interleaved.
* In C54: the reference count of a future's shared state, the slots and the buffer of the deque
  (atomic and relaxed; C52, C53), memory touched only by `LF_ASSERT`, the user's own data (C55 says
  what the user may rely on).  `memory_order_consume` (`list.hpp:104`) is taken as acquire.
* Concepts, `static_assert`s, type-level plumbing (`invocable.hpp`, `tag.hpp`,
  `combinate.hpp`, `constraints.hpp`, `extern.hpp`, `macro.hpp`, `first_arg.hpp`
  except `stash_exception`): they have no run-time behaviour that varies.
* Compiler-generated code of coroutines, thread creation, OS scheduling, real time,
  `hwloc` itself (an oracle), floating-point rounding of steal weights.
* Printing in debug builds (`LF_LOG`).

## 4. Per property

Theorem names are in `MANIFEST.json`; here is what is modelled and how it is proved.

| property | status | how |
|---|---|---|
| C01 | proved | A history records every task's fork, end and join.  Invariant: a frame past its join has only finished children, and their cells hold their outcomes. |
| C02 | proved | Invariant "each frame has exactly one owner": running on one worker, in one deque, in one inbox, waiting at a join, or waiting for its call. |
| C03 | proved | Big-step serial semantics in `RuntimeSpec.v`; the history of every task of every execution satisfies it.  `C03_deterministic`: programs without throws and schedule-dependent features have exactly one value. |
| C04 | proved | From the ownership invariant: a frame that called is owned by its child. |
| C05 | proved | Signal count in the history, at most one; when it is posted all other frames of the tree are gone. |
| C06 | proved | Progress lemma: a state without a step of the computation has no unfinished root. |
| C07 | partial | The runtime invariant holds while no scope forks more than 65534 times (`C07_up_to_65534_partial`).  With 65535 or more the property is FALSE; the refutation runs the machine symbolically for any such number. |
| C08 | proved | Inbox of the requested worker in the ownership invariant; history of resumptions. |
| C09 | proved | A steal increments the counter before the child can finish elsewhere; invariant on counter and ownership. |
| C10 | proved | `Undef` is unreachable; the frames on a stack form a FILO list; each stack has one owner. |
| C11 | proved | Exception slot of a frame and its history. |
| C12 | proved | As C11 for cells that store exceptions. |
| C13 | partial | FALSE of the code (finding F2).  `C13_eager_throw_refuted`: a program that should return 1 always returns 2; `C13_own_exception_refuted`: no call whose return object does not store exceptions ever throws its child's.  Proved (`Prop_Eager.v`): what the modifiers do throw if the return object stores exceptions (`C13_eager_call_partial`, `C13_sync_fork_partial`), namely exceptions that other children left in the task (`C13_thrown_is_a_childs`).  |
| C14–C17 | proved | Invariant over every legal sequence of operations on any number of stacks with any malloc. |
| C18 | partial | Proved up to `2^64 − 4192`, and proved that one byte more fails (finding F8). |
| C19 | proved | Linearization-point simulation of a list; sequential consistency. |
| C20 | proved | From the same simulation, at the moment of the deciding access. |
| C21 | proved | Invariants on capacity, garbage vector and old buffers. |
| C22 | proved | Simulation of a queue; sequential consistency. |
| C23 | proved | Invariant between epoch, waiters and blocked threads; `C23_wait_returns` over fair infinite executions; 2^32 limit refuted beyond (F9). |
| C24, C25 | proved | Invariant on the packed word; induction over await's loop. |
| C26, C27 | proved | Invariants of the lazy pool; liveness over fair infinite executions. |
| C28 | proved | Ranking functions over fair infinite executions. |
| C29–C33 | proved | Footprint logic for fork-join programs: the memory after every interleaving is the sequential one, no two parallel tasks conflict. |
| C34 | partial | Proved for `n ≥ 1`; FALSE for `n ≤ 0` (F5). |
| C35 | proved | Every sequence of API calls that respects the documented preconditions. |
| C36 | proved | Invariant over all interleavings of clients and tasks. |
| C37 | partial | Proved if allocation succeeds and `worker_init` is not called from inside `schedule`; otherwise FALSE (F6). |
| C38 | partial | FALSE (F7); all other failure points of `schedule` are proved to restore the state. |
| C39 | proved | `just` in the Runtime model. |
| C40 | partial | Proved if `count * sizeof(T)` does not exceed the limit of C18; refuted beyond. |
| C41, C42 | proved | The transition is a matrix over GF(2); jump polynomial identity by repeated squaring; the exact period from the prime factors of 2^256−1. |
| C43 | proved | For every answer of hwloc that satisfies two stated conditions. |
| C44 | proved | For every outcome of the random choices and of the steals. |
| C45 | partial | Proved for for_each, map and fold with synchronous operation; FALSE for scan and asynchronous fold (F3). |
| C46, C47, C49 | proved | Invariants and fairness on the pool models. |
| C48 | partial | FALSE (F10). |
| C50 | proved | By induction on the list of packages. |
| C51 | proved | `Prop_Term.v`. A well-founded measure on machine states: the multiset of live tasks, each ordered by what its serial semantics can still do (`halts`), then the administrative steps of the workers. No per-worker fairness is assumed, only that the machine does not rest forever while something can move. |
| C52 | proved | `WeakModel.v`: the deque of C19 with the owner's stores delayed in a first-in first-out buffer.  The invariant of C19 holds of the owner's view; a second invariant says that what thieves can read in memory agrees with the view for every index they can still win. |
| C53 | partial | The same model with reordering of stores that no release fence separates.  FALSE of the code (F17); proved while the buffer has not been replaced, and with a release store in line 395. |
| C54, C55 | proved | `Prop_Sync.v`.  The Runtime machine with memory traces.  C54: each access is shown to happen after all earlier conflicting ones.  C55: five orders between positions of user code in a trace.  Examples show that the specification finds races in unsynchronised traces and that parent and child are unordered between fork and join. |
| C56 | proved | Invariants of the lazy pool and of the views of its threads, over all values the loads may return. |
| C57 | partial | FALSE of the code (F20, `C57_somebody_searches_refuted`); proved for loads of newest values. |
| C58 | proved | Projection to the models of pool and runtime, fairness of the projections, the well-founded order of C51, C28. |
| C59 | proved | Once the work has ended the number of workers holding a task only falls; then no epoch changes any more, and a rank of each worker (how far it is from blocking) falls with each of its steps (`LazyIdle.v`). For programs: C58's end of all work, projected to the pool. |
| C60 | proved | As C58; a worker of these pools never sleeps, so a worker with something to do makes a step of the runtime after at most three steps of its loop. |
| C61 | proved | Invariant: a worker that has left its loops has an empty list (used as documented) and rests; so when all have left the runtime cannot move, and by progress (C10) no frame is left. The restriction is needed (`C61_moved_task_lost`). |
| C62 | proved | Invariant: the latches count the workers that have not arrived; who is between them sees all contexts alive. |
| C63 | proved | C62's invariant; the constructor's rank decreases whenever it, or a worker it waits for, makes a step. |
| C64 | partial | Refuted by an execution; safe if no other pool's worker is inside `schedule`. |
| C65 | partial | Refuted for every program that moves: a pool with null `m_share` never goes away. |
| C66 | proved | The history invariant of C03 also collects, for each task, its children in order; the tree is put together by induction over the history (`RuntimeTree.v`). Determinism: two serial runs of a pure program are equal, by induction over the tree. |
| C67 | proved | C66 reduces it to serial runs; induction over the recursion of the algorithm. The rules and termination of the task by induction over the length of the range; then C58 and C60 for the pools, and C75 and C76 for the pools with the real deques (Prop_AlgoDeep.v), and C80 and C81 for those with the real deques and stacks (Prop_AlgoStack.v). |
| C68 | proved | As C67, with `eval` in place of the call tree. An async operation with chunks of more than one element is excluded (F2, F3). |
| C69 | proved | `SpaceProofs.v`. The runtime invariant shows that a task without live children is held by a worker (at most one each) or sits in a queue: elements of a deque have live descendants because deques are chains of fork ancestors. A second invariant bounds every path from a root to a task by the serial peak. Every live task is on the path of some leaf, so the total is at most (leaves) x (serial peak). The serial peak quantifies over all results children may return. Not counted: `co_new` memory and the slack of stacklets. Finding: rescheduling (`resume_on`) escapes the P-fold bound, hence the term for queued tasks (`C69_rescheduling_refuted`). |
| C70 | proved | `FineModel.v` gives every worker a deque of `DequeModel.v` and executes push, pop and steal access by access; what a worker does in between is `RuntimeModel.wstep`, which is shown only what the deque operation returned (or what `empty()` says). `FineProofs2.v`: a simulation in which the atomic deque is the deque's contents according to its linearization history plus the result of a pop that has taken effect and not yet returned. The runtime's step of a fork is tied to the store that publishes the parent, that of a pop to the return of pop, that of a steal to the successful compare-exchange. Not refined: the submission list stays atomic. |
| C71 | proved | `FineLive.v`. A rank of each worker bounds the accesses left in its current deque operation: its own steps lower it or make a step of the simulated atomic machine, steps of others leave it alone (a failed compare-exchange ends the operation, nothing is retried). Some worker whose next step does not depend on a steal exists while a task is left (`progress_own`: otherwise all are idle and all lists and deques are empty). So the atomic machine steps again and again, and C51's order decreases. |
| C72 | proved | `DequeCost.v`. A rank of the program counter falls with each step of its owner and is left alone by others. Space: buffer number j has capacity 2^(k+j); a push that finds the buffer full has, when it read the top index, seen as many items as the buffer has slots, and only the owner changes the bottom index. Copying: each growth copies at most the capacity of the replaced buffer; the geometric series. |
| C73 | proved | `StaleSpec.v` (values the counter has had since the last join, values the exception flag has had since it was last cleared; the code of await_ready and of the two await_resume with the value read as a parameter), `StaleProofs.v`: every step of the machine (with the invariant of C01, so that no subtraction wraps) leaves a task's counter, decreases it, or passes a join; the number of joined children is at most the number of steals, so an older value equal to the number of steals would be the last one. Every step that unsets a flag is the task's own join or rethrow, so an outdated flag says "no exception", which the serial semantics allows, and the exception stays for the join. The step `LStale` was added to the machine, the invariant, the history, the measure of C51, happens-before (an outdated load synchronises with nothing), memory, the deque composition and the pools, and all their theorems proved again. |
| C74 | partial | `ViewModel.v`, `ViewProofs.v`, `ViewSteps.v`, `Prop_View.v`. Key facts of the invariant: the owner's views at its fences know all items (`known`: every message of a slot that such a view still allows is the item); a thief that is after its fence wants an index at most the global view of m_top, or has seen the owner's decremented m_bottom, so owner and thief cannot both take the last item without the compare-and-swap. FALSE of the code once the buffer grows (`C74_no_undefined_behaviour_refuted`, F17); proved until then (`_partial`), and always with a release store in line 395. `C74_each_ordering_needed`: executions with undefined behaviour or an item taken twice if one of the other four orderings is dropped. Refuted: that "lost" implies that somebody took an item since the call; linearizability including "empty" |
| C75 | proved | `DeepFine.v`, `DeepProofs.v`. A step of the machine is a step of Whole (`wlab_of` computes which) or lowers `R w` = (steals left in this call of try_steal, accesses left in the current operation) of the worker `w` that makes it, and no step of another worker changes `R w` (`thread_sim`, `R_other`). A worker that cannot step here cannot step in Whole (`blocked_whole`). So a fair execution gives a fair execution of Whole with the same history, and C58 applies. |
| C76 | proved | `BDeepProofs.v`, with `DeepFine.v`. As C75, with BWhole in place of Whole: `thread_sim`, `R_other`, `blocked_whole`; use as documented carries over because a step of BDeep and the step of BWhole it stands for are made by the same thread in the same state of the tasks (`documented_whole`). Then C60 and C61 apply. |
| C77 | proved | `RStackProofs.v`. `rel`: the frames that the Runtime invariant puts on a stack, newest first, are the live allocations of that stack in the Stack model; a worker's stack object holds the stack the Runtime model says it has; live stacks are those of the workers and those with a frame on them. `step_exec`: each step keeps it and no stack operation is illegal, so the theorems about legal histories (C14, C15) apply. `frames_stay`: by inspection of the actions.  Progress needs that a step calls malloc in one place only. Destructors: `halt_ok`. |
| C78 | partial | `Prop_FutureLife.v`. FALSE of the code: `C78_outlives_refuted` (move assignment, F14). Proved by induction over histories with the invariant of C36: apart from assignment to a future that still refers to a task, and detach, a task is never without a future before it has signalled. |
| C79 | proved | `FStackProofs.v`: each step is a step of RStack with the same stack code, or changes neither tasks nor stacks; what a worker is shown of its deque decides its stack code as the atomic deque does. Then C77 and C03 apply. |
| C80 | proved | `BStackProofs.v`: an execution is one of C76 and one of C79 at once; stack code throws only in schedule(), so fairness is kept when memory is left out. When the destructor has returned no task is left and the workers are idle, so C79_shutdown applies. |
| C81 | proved | `LStackProofs.v`: the same for lazy_pool with C75; a call of schedule() that has begun does not throw any more. |
| C82 | partial | `SubmitProofs.v`. FALSE of the code (F26): `C82_submitters_race_refuted`. Proved instead: `C82_mutex_partial`, `C82_one_thread_partial`. Missing: nothing that is true of the code without such a condition. |
| C83 | partial | `DMemProofs.v`. FALSE of the constructor (F13): `C83_constructor_leaks_refuted`; `C83_constructor_partial` says that this is the only case. The destructor, push out of memory, and that 64 reserved slots are enough, are proved in full under the names `C83_…_partial`. Missing: nothing that is true of the code. |

## 5. Findings

What the proofs showed to be wrong, or right only under conditions that the
documentation does not state.  Each is a theorem unless marked (reading).

* F1 (C07) The join counter is 16 bits: a scope with 65535 or more forks of which
  enough are stolen wraps.  The limit 65534 is tight.
* F2 (C13) `promise.hpp:217` has the condition inverted: the rethrow of `eager_throw`
  and `sync` is generated only for return objects that store exceptions.
* F3 (C45) Because of F2, an exception of an asynchronous operation in the sequential part
  of `fold`/`scan` stays in the frame and reaches `final_suspend`'s assertion.
  `scan` continues after a synchronous fork whose child threw and reads the
  uninitialised `left_out`.
* F4 (C40, C18) `co_new` multiplies `count * sizeof(T)` without an overflow check.
* F5 (C34) A chunk size `n ≤ 0` is undefined behaviour in every algorithm.
* F6 (C37) If `worker_init` cannot allocate the stack, its handler destroys the context, swallows the exception, sets both
  flags and returns the dead context; `full_context`'s constructor is `noexcept` but allocates; calling
  `worker_init` while the thread is inside `schedule` constructs a second stack over
  a live one.
* F7 (C38) If `sch.schedule` throws, the coroutine is destroyed on a stack other than
  its own.
* F8 (C18) Sizes above `2^64 − 4192` wrap in the stacklet's size computation.
* F9 (C23) A waiter can sleep through exactly a multiple of 2^32 notifications.
* F10 (C48) `lazy_pool` drops a job pushed between a worker's second look at its list
  and its test of the stop flag.
* F11 (C41) The 2^128 subsequences of length 2^128 started by jumps overlap in one
  element, as the period is 2^256−1; the theorem states the exact condition.
* F12 (C35) A `try_eventually<void>` reads as empty again after its exception
  has been moved out.
* F13 (`C83_constructor_leaks_refuted`) `deque`'s constructor leaks the buffer if `m_garbage.reserve` throws.  A push into a full deque of 2^62 one-byte elements overflows `2 * m_cap` (`C83_bytes_overflow_refuted`; of theoretical interest).
* F14 (C78) Move-assigning to a valid future drops the state without waiting, unlike its destructor.
* F15 (C27) The thief/active test of `lazy_pool` is a store-load (Dekker) pattern with
  acq_rel orderings, which do not forbid the reordering; C27 is proved under
  sequential consistency only, see F20.
* F16 (C43) Without hwloc `distribute` identifies workers by pointer; duplicates
  are skipped.
* F17 (C53, C74) `deque.hpp:395` publishes the grown buffer with `m_buf.store(buf, relaxed)`; no release
  fence separates it from the stores of `resize`.  On a machine that reorders stores a thief that read
  `m_bottom` before can load the new buffer and take an item from a slot that is not yet written.
* F18 (C52) Already on x86 a steal can report "empty" after a push has returned, while the push is in the
  owner's store buffer.
* F19 (C54, reading) `list.hpp:104` takes the submitted tasks with `memory_order_consume`.  What the taker then
  reads is reached through the pointer, but the standard discourages `consume` and C54 needs the acquire
  that compilers make of it.
* F20 (C57) The invariant which `lazy_pool.hpp:99` and 246-258 claim, "if (A > 0) then (T >= 1 or S == 0)", does not hold
  with the orderings used.  One worker does `thief.fetch_sub(1, acq_rel)` and then `active.load(acquire)`
  (262, 266), another `active.fetch_add(1, acq_rel)` and then `thief.load(acquire)` (121, 123): each may
  read the old value, the first goes to sleep and the second wakes nobody.  A worker then runs its task alone while
  others sleep, until the next event.  x86 and ARMv8 with `ldar` exclude it, POWER and ARMv8.3 with `ldapr` do not;
  seq_cst on the four accesses repairs it (`C57_somebody_searches_partial`).  No job is lost (C56).
* F21 (reading) `event_count.hpp` waits on the upper half of a 64-bit atomic through a `reinterpret_cast` to a 32-bit
  atomic; mixed-size access is undefined in C++.
* F22 (C63) If the allocation in `m_contexts.push_back` (busy_pool.hpp:187, lazy_pool.hpp:364) fails, the started threads are destroyed
  while joinable: the program is terminated, although the constructor may throw.
* F23 (C63) A pool with no workers cannot be used: `m_dist` is `{0, 2^64-1}` and indexes an empty vector; `lazy_pool`'s constructor
  dereferences `max_element` of an empty range.  The default size, `hardware_concurrency()`, may be 0.
* F24 (C64) `worker_context::schedule` uses the context (`m_notify`) after it has pushed the task.  If a task moves to a worker of another
  pool it can be finished, and that pool be destroyed, before the notification: use after free.
* F25 (C65) The defaulted move operations of `busy_pool` and `lazy_pool` leave `m_share` null, which the destructor dereferences; move
  assignment destroys the target's joinable threads, i.e. terminates.
* F26 (`C82_submitters_race_refuted`) `busy_pool::schedule` and `lazy_pool::schedule` advance `m_rng` without synchronisation: two threads that submit to one
  pool at the same time race.  The models let several clients submit; that is right only if they take turns at this line.
* F27 (reading) The constructor of `resume_on_quasi_awaitable<Sch>` takes a `worker_context *`, so `resume_on` compiles for no other scheduler.

## 6. Testing the theorems

`seeded/LOG.jsonl` has one line per wrong program tried: the definition edited, the
edit, the claim it breaks, the theorems (or lemmas below them) that failed, and
the theorems tightened as a consequence.
