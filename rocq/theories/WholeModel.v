(** * The runtime on lazy_pool.

    Code: /repo/include/libfork/schedule/lazy_pool.hpp (lazy_work, thief_work_sleep),
    core/ext/resume.hpp (what a worker does with a handle it got), core/ext/context.hpp:70-78
    (schedule), core/sync_wait.hpp:251-283.

    LazyModel.v has the loop of each worker thread but leaves open what the tasks do;
    RuntimeModel.v has what the tasks do but lets the environment decide when a worker
    looks at its queues.  Here the two run together: each thread of the pool is driven by
    the loop of lazy_pool, and the calls made by that loop are the steps of the runtime.

    - try_pop_all (lines 204, 230) with a non-empty list: LTake.
    - try_steal (line 208) that succeeds: LSteal; it may fail although there is something
      to steal (a lost race), not the other way round.
    - resume (line 129): the steps LWork of that worker, until it is idle with nothing left
      of its batch; then resume returns.
    - a task that moves to another worker calls schedule there (awaitables.hpp:124,
      context.hpp:70-78): push and notify.  Its thread is inside that call until notify has
      returned.
    - a thread outside the pool that calls sync_wait or schedule: LSpawn with the push, then
      notify.

    The submission list of a worker occurs in both models, and both are updated by each
    step; that they agree is a theorem (WholeInv.v). *)

From stdpp Require Import prelude gmap list.
From Coq Require Import NArith.
From Verif Require Import PoolCommon LazyModel.
From Verif Require RuntimeModel.

(** The pool, the runtime, and the runtime's events, newest first. *)
Record whole := Whole { pool : st; rt : RuntimeModel.state; hist : list RuntimeModel.event }.

Definition init_whole (n : nat) : whole := Whole LazyModel.init (RuntimeModel.init n) [].

(** Worker [w] has nothing to resume: resume (resume.hpp:26-79) has returned, or was not
    called. *)
Definition resting (r : RuntimeModel.state) (w : nat) : bool :=
  match RuntimeModel.s_workers r !! w with
  | Some wk => match RuntimeModel.w_pc wk, RuntimeModel.w_batch wk with RuntimeModel.PIdle, [] => true | _, _ => false end
  | None => true
  end.

(** The next step of worker [w] submits the task it runs to a worker: that worker and the task
    (context_switch_awaitable::await_suspend, awaitables.hpp:107-125). *)
Definition moving (r : RuntimeModel.state) (w : nat) : option (nat * N) :=
  match RuntimeModel.s_workers r !! w with
  | Some wk =>
    match RuntimeModel.w_pc wk with
    | RuntimeModel.PRun f =>
      match RuntimeModel.f_rp <$> RuntimeModel.s_frames r !! f with
      | Some (RuntimeModel.RRun (RuntimeModel.Switch skip d _)) =>
        if skip && bool_decide (d = w) then None else Some (d, f)
      | _ => None
      end
    | _ => None
    end
  | None => None
  end.

(** What can happen: a step of worker thread [w] ([c]: whether its steal succeeds and whom
    notify_one wakes; [v]: the victim; [fail]: an allocation fails), of a thread [a] outside
    the pool ([t]: the program it submits to worker [d], if it is between two calls), of the
    thread that runs the destructor, a spurious wake-up, a step of worker thread [w] whose load
    of the counter of joins is outdated (RuntimeModel.stale). *)
Inductive wlab :=
| XWorker (w : nat) (c : choice) (v : nat) (fail : bool)
| XClient (a d : nat) (t : RuntimeModel.task)
| XDtor
| XSpurious (w : nat)
| XStale (w : nat).

(** The step of the pool and the step of the runtime that make up [l]. *)
Definition parts (n : nat) (l : wlab) (x : whole) : option (option lab * option RuntimeModel.label) :=
  match l with
  | XWorker w c v fail =>
    match ag (pool x) w with
    | AIdle =>
      match pc (pool x) w with
      | WPop1 | WPop2 _ =>
        Some (Some (LWorker w c), match q (pool x) w with [] => None | _ => Some (RuntimeModel.LTake w) end)
      | WSteal => Some (Some (LWorker w c), if c_steal c then Some (RuntimeModel.LSteal w v) else None)
      | TRun _ =>
        if resting (rt x) w then Some (Some (LWorker w c), None)
        else Some (match moving (rt x) w with Some (d, f) => Some (LAgent w d (N.to_nat f)) | None => None end,
                   Some (RuntimeModel.LWork w fail))
      | _ => Some (Some (LWorker w c), None)
      end
    | _ => Some (Some (LAgent w 0 0), None)   (* inside schedule *)
    end
  | XClient a d t =>
    if decide (a < n) then None else
    match ag (pool x) a with
    | AIdle => Some (Some (LAgent a d (N.to_nat (RuntimeModel.s_nextf (rt x)))), Some (RuntimeModel.LSpawn d t))
    | _ => Some (Some (LAgent a 0 0), None)
    end
  | XDtor => Some (Some LDtor, None)
  | XSpurious w => Some (Some (LSpurious w), None)
  | XStale w =>
    match ag (pool x) w, pc (pool x) w with
    | AIdle, TRun _ => Some (None, Some (RuntimeModel.LStale w))
    | _, _ => None
    end
  end.

Inductive wres := WNext (x : whole) | WBlock | WUndef.

Section Whole.
(** The number of workers, the number of NUMA domains, the domain of each worker. *)
Context (n nd : nat) (dom : nat -> nat).

Definition pool_part (l : option lab) (p : st) : outcome st :=
  match l with Some l => LazyModel.step n nd dom l p | None => Next p [] end.
Definition rt_part (l : option RuntimeModel.label) (r : RuntimeModel.state) : RuntimeModel.res :=
  match l with Some l => RuntimeModel.step l r | None => RuntimeModel.Next r [] end.

Definition whole_step (l : wlab) (x : whole) : wres :=
  match parts n l x with
  | None => WBlock
  | Some (pl, rl) =>
    match pool_part pl (pool x), rt_part rl (rt x) with
    | Undef, _ | _, RuntimeModel.Undef => WUndef
    | Next p _, RuntimeModel.Next r tr => WNext (Whole p r (rev tr ++ hist x))
    | _, _ => WBlock
    end
  end.
End Whole.
