(** * lazy_pool, the runtime and the real deques, together.

    Code: /repo/include/libfork/schedule/lazy_pool.hpp (lazy_work, thief_work_sleep),
    schedule/impl/numa_context.hpp:180-228 (try_steal), core/ext/deque.hpp (push, pop, steal),
    core/ext/resume.hpp, core/ext/context.hpp:70-78 (schedule), core/sync_wait.hpp:251-283.

    WholeModel.v runs programs on the loop of lazy_pool, but with atomic deques: a call of
    try_steal either gets a task in one step or gets nothing.  FineModel.v runs programs on the real
    deques, one access to shared memory at a time, but lets the environment decide when a worker
    looks for work.  Here each thread of the pool is driven by the loop of lazy_pool, and what that
    loop calls are the steps of FineModel:

    - try_pop_all (lines 204, 230) with a non-empty list: FTake.
    - try_steal (line 208): up to [K] steals, each from any other worker and each made of several
      steps (FSteal, then FWork), until one of them gets a task; then it returns.  It may also return
      without a task after fewer than [K] steals: the code makes a fixed number of them
      (numa_context.hpp:207-219), so the executions of the code are among those of the model.
    - resume (line 129): the steps FWork of that worker, until it is idle with nothing left of its
      batch and not inside push or pop; then resume returns.
    - schedule by a task that moves, and by a thread outside the pool: as in WholeModel.v. *)

From stdpp Require Import prelude gmap list.
From Coq Require Import NArith.
From Verif Require Import PoolCommon LazyModel.
From Verif Require RuntimeModel DequeModel FineModel WholeModel.

(** The pool; the runtime and the deques; how many steals worker [w] has begun in its current call
    of try_steal (numa_context.hpp:210, 218: the loop counters); the runtime's events, newest
    first. *)
Record deep := Deep {
  pool : st;
  fn : FineModel.fine;
  tries : nat -> nat;
  hist : list RuntimeModel.event
}.

(** Initially: all threads at the start of their loop, deques of capacity [2^k]. *)
Definition init_deep (n k : nat) : deep := Deep LazyModel.init (FineModel.finit n k) (fun _ => 0) [].

(** The next step of worker [w] submits the task it runs to a worker (awaitables.hpp:107-125); not
    while it is inside push or pop. *)
Definition moving (x : FineModel.fine) (w : nat) : option (nat * N) :=
  match DequeModel.d_own (FineModel.dq x w) with
  | DequeModel.OIdle => WholeModel.moving (FineModel.rt x) w
  | _ => None
  end.

(** The steal of worker [w] has got a task in the step from [x] to [x'] (deque.hpp:455: the
    compare-exchange succeeds). *)
Definition grabbed (x x' : FineModel.fine) (w : nat) : bool :=
  WholeModel.resting (FineModel.rt x) w && negb (WholeModel.resting (FineModel.rt x') w).

(** What can happen: a step of worker thread [w] ([c]: whether try_steal goes on, and whom
    notify_one wakes; [v]: the next victim; [fail]: an allocation fails), of a thread [a] outside
    the pool ([t]: the program it submits to worker [d], if it is between two calls), of the thread
    that runs the destructor, a spurious wake-up, a step of worker thread [w] whose load of the
    counter of joins or of an exception flag is outdated (RuntimeModel.stale). *)
Inductive dlab :=
| YWorker (w : nat) (c : choice) (v : nat) (fail : bool)
| YClient (a d : nat) (t : RuntimeModel.task)
| YDtor
| YSpurious (w : nat)
| YStale (w : nat).

Inductive dres := DNext (x : deep) | DBlock | DUndef.

Section Deep.
(** The number of workers, the number of NUMA domains, the domain of each worker, the most steals
    in a call of try_steal. *)
Context (n nd : nat) (dom : nat -> nat) (K : nat).

(** A step of the pool, if any, with the step [r] of the runtime and the deques. *)
Definition both (l : option lab) (r : FineModel.fres) (tries' : nat -> nat) (x : deep) : dres :=
  match WholeModel.pool_part n nd dom l (pool x), r with
  | Undef, _ | _, FineModel.FUndef => DUndef
  | Next p _, FineModel.FNext f tr => DNext (Deep p f tries' (rev tr ++ hist x))
  | _, _ => DBlock
  end.

(** A step of the pool alone. *)
Definition alone (l : lab) (x : deep) : dres := both (Some l) (FineModel.FNext (fn x) []) (tries x) x.

(** A step of worker thread [w]. *)
Definition thread (w : nat) (c : choice) (v : nat) (fail : bool) (x : deep) : dres :=
  match ag (pool x) w with
  | AIdle =>
    match FineModel.from (fn x) w with
    | Some _ =>
      (* inside a steal: numa_context.hpp:191 *)
      let r := FineModel.fstep (FineModel.FWork w fail) (fn x) in
      if match r with FineModel.FNext f _ => grabbed (fn x) f w | _ => false end then
        (* 195-197: try_steal returns the task *)
        both (Some (LWorker w (Choice true None))) r (FineModel.set_at w 0 (tries x)) x
      else both None r (tries x) x
    | None =>
      match pc (pool x) w with
      | WPop1 | WPop2 _ =>
        both (Some (LWorker w c))
             (match q (pool x) w with
              | [] => FineModel.FNext (fn x) []
              | _ => FineModel.fstep (FineModel.FTake w) (fn x)
              end) (tries x) x
      | WSteal =>
        if c_steal c && bool_decide (tries x w < K) then
          (* numa_context.hpp:210-211, 218-219: the next steal *)
          both None (FineModel.fstep (FineModel.FSteal w v) (fn x)) (FineModel.set_at w (S (tries x w)) (tries x)) x
        else
          (* 227: try_steal returns nullptr *)
          both (Some (LWorker w (Choice false (c_target c)))) (FineModel.FNext (fn x) []) (FineModel.set_at w 0 (tries x)) x
      | TRun _ =>
        if FineModel.looking w (fn x) then alone (LWorker w c) x
        else both (match moving (fn x) w with Some (d, f) => Some (LAgent w d (N.to_nat f)) | None => None end)
                  (FineModel.fstep (FineModel.FWork w fail) (fn x)) (tries x) x
      | _ => alone (LWorker w c) x
      end
    end
  | _ => alone (LAgent w 0 0) x   (* inside schedule *)
  end.

(** The machine. *)
Definition deep_step (l : dlab) (x : deep) : dres :=
  match l with
  | YWorker w c v fail => if decide (w < n) then thread w c v fail x else DBlock
  | YClient a d t =>
    if decide (a < n) then DBlock else
    match ag (pool x) a with
    | AIdle => both (Some (LAgent a d (N.to_nat (RuntimeModel.s_nextf (FineModel.rt (fn x))))))
                    (FineModel.fstep (FineModel.FSpawn d t) (fn x)) (tries x) x
    | _ => alone (LAgent a 0 0) x
    end
  | YDtor => alone LDtor x
  | YSpurious w => alone (LSpurious w) x
  | YStale w =>
    match ag (pool x) w, pc (pool x) w with
    | AIdle, TRun _ => both None (FineModel.fstep (FineModel.FStale w) (fn x)) (tries x) x
    | _, _ => DBlock
    end
  end.
End Deep.
