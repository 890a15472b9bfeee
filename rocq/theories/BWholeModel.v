(** * The runtime on busy_pool and unit_pool.

    Code: /repo/include/libfork/schedule/busy_pool.hpp (busy_work, lines 70-112; schedule,
    line 192; ~busy_pool, lines 199-208), schedule/unit_pool.hpp (work, lines 37-58; schedule,
    line 72; ~unit_pool, lines 77-80), core/ext/resume.hpp (what a worker does with a handle
    it got), core/ext/context.hpp:70-78 (schedule), core/sync_wait.hpp:251-283.

    As WholeModel.v, with the loops of BusyModel.v.  The notification of these pools is a
    no-op, so scheduling is one push. *)

From stdpp Require Import prelude gmap list.
From Coq Require Import NArith.
From Verif Require Import PoolCommon BusyModel.
From Verif Require RuntimeModel WholeModel.

(** The pool, the runtime, and the runtime's events, newest first. *)
Record whole := Whole { pool : st; rt : RuntimeModel.state; hist : list RuntimeModel.event }.

Definition init_whole (n : nat) : whole := Whole BusyModel.init (RuntimeModel.init n) [].

(** What can happen: a step of worker thread [w] ([c]: its steal succeeds; [v]: the victim;
    [fail]: an allocation fails); a thread outside the pool submits program [t] to worker [d];
    the destructor tells the workers to stop; it has joined them; a step of worker thread [w]
    whose load of the counter of joins is outdated (RuntimeModel.stale). *)
Inductive wlab :=
| XWorker (w : nat) (c : bool) (v : nat) (fail : bool)
| XClient (d : nat) (t : RuntimeModel.task)
| XDtor | XJoin
| XStale (w : nat).

(** The step of the pool and the step of the runtime that make up [l]. *)
Definition parts (l : wlab) (x : whole) : option lab * option RuntimeModel.label :=
  match l with
  | XWorker w c v fail =>
    match pc (pool x) w with
    | BPop | BDrain =>
      (Some (LWorker w c), match q (pool x) w with [] => None | _ => Some (RuntimeModel.LTake w) end)
    | BSteal => (Some (LWorker w c), if c then Some (RuntimeModel.LSteal w v) else None)
    | BRun _ | BDrainRun _ =>
      if WholeModel.resting (rt x) w then (Some (LWorker w c), None)
      else (match WholeModel.moving (rt x) w with Some (d, f) => Some (LPush d (N.to_nat f)) | None => None end,
            Some (RuntimeModel.LWork w fail))
    | _ => (Some (LWorker w c), None)
    end
  | XClient d t => (Some (LPush d (N.to_nat (RuntimeModel.s_nextf (rt x)))), Some (RuntimeModel.LSpawn d t))
  | XDtor => (Some LStop, None)
  | XJoin => (Some LJoin, None)
  | XStale w => (None, Some (RuntimeModel.LStale w))
  end.

Inductive wres := WNext (x : whole) | WBlock | WUndef.

Section Whole.
(** The number of workers; [unit]: unit_pool. *)
Context (n : nat) (unit : bool).

Definition pool_part (l : option lab) (p : st) : outcome st :=
  match l with Some l => BusyModel.step n unit l p | None => Next p [] end.
Definition rt_part (l : option RuntimeModel.label) (r : RuntimeModel.state) : RuntimeModel.res :=
  match l with Some l => RuntimeModel.step l r | None => RuntimeModel.Next r [] end.

Definition whole_step (l : wlab) (x : whole) : wres :=
  match pool_part (fst (parts l x)) (pool x), rt_part (snd (parts l x)) (rt x) with
  | Undef, _ | _, RuntimeModel.Undef => WUndef
  | Next p _, RuntimeModel.Next r tr => WNext (Whole p r (rev tr ++ hist x))
  | _, _ => WBlock
  end.
End Whole.
