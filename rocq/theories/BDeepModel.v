(** * busy_pool and unit_pool, the runtime and the real deques, together.

    Code: /repo/include/libfork/schedule/busy_pool.hpp (busy_work, lines 71-110; ~busy_pool),
    schedule/unit_pool.hpp (work, lines 38-57; ~unit_pool), schedule/impl/numa_context.hpp:180-228
    (try_steal), core/ext/deque.hpp (push, pop, steal), core/ext/resume.hpp,
    core/ext/context.hpp:70-78 (schedule), core/sync_wait.hpp:251-283.

    As DeepModel.v, with the loops of BusyModel.v. *)

From stdpp Require Import prelude gmap list.
From Coq Require Import NArith.
From Verif Require Import PoolCommon BusyModel.
From Verif Require RuntimeModel DequeModel FineModel WholeModel BWholeModel DeepModel.

(** The pool; the runtime and the deques; how many steals worker [w] has begun in its current call
    of try_steal (numa_context.hpp:210, 218); the runtime's events, newest first. *)
Record deep := Deep {
  pool : st;
  fn : FineModel.fine;
  tries : nat -> nat;
  hist : list RuntimeModel.event
}.

(** Initially: all threads at the start of their loop, deques of capacity [2^k]. *)
Definition init_deep (n k : nat) : deep := Deep BusyModel.init (FineModel.finit n k) (fun _ => 0) [].

(** What can happen: a step of worker thread [w] ([c]: whether try_steal goes on; [v]: the next
    victim; [fail]: an allocation fails); a thread outside the pool submits program [t] to worker
    [d]; the destructor tells the workers to stop; it has joined them; a step of worker thread [w]
    whose load of the counter of joins or of an exception flag is outdated (RuntimeModel.stale). *)
Inductive dlab :=
| YWorker (w : nat) (c : bool) (v : nat) (fail : bool)
| YClient (d : nat) (t : RuntimeModel.task)
| YDtor | YJoin
| YStale (w : nat).

Inductive dres := DNext (x : deep) | DBlock | DUndef.

Section Deep.
(** The number of workers; [unit]: unit_pool; the most steals in a call of try_steal. *)
Context (n : nat) (unit : bool) (K : nat).

(** A step of the pool, if any, with the step [r] of the runtime and the deques. *)
Definition both (l : option lab) (r : FineModel.fres) (tries' : nat -> nat) (x : deep) : dres :=
  match BWholeModel.pool_part n unit l (pool x), r with
  | Undef, _ | _, FineModel.FUndef => DUndef
  | Next p _, FineModel.FNext f tr => DNext (Deep p f tries' (rev tr ++ hist x))
  | _, _ => DBlock
  end.

(** A step of the pool alone. *)
Definition alone (l : lab) (x : deep) : dres := both (Some l) (FineModel.FNext (fn x) []) (tries x) x.

(** A step of worker thread [w]. *)
Definition thread (w : nat) (c : bool) (v : nat) (fail : bool) (x : deep) : dres :=
  match FineModel.from (fn x) w with
  | Some _ =>
    (* inside a steal: numa_context.hpp:191 *)
    let r := FineModel.fstep (FineModel.FWork w fail) (fn x) in
    if match r with FineModel.FNext f _ => DeepModel.grabbed (fn x) f w | _ => false end then
      (* 195-197: try_steal returns the task *)
      both (Some (LWorker w true)) r (FineModel.set_at w 0 (tries x)) x
    else both None r (tries x) x
  | None =>
    match pc (pool x) w with
    | BPop | BDrain =>
      (* busy_pool.hpp:97, 108; unit_pool.hpp:49, 55 *)
      both (Some (LWorker w c))
           (match q (pool x) w with
            | [] => FineModel.FNext (fn x) []
            | _ => FineModel.fstep (FineModel.FTake w) (fn x)
            end) (tries x) x
    | BSteal =>
      if c && bool_decide (tries x w < K) then
        (* numa_context.hpp:210-211, 218-219: the next steal *)
        both None (FineModel.fstep (FineModel.FSteal w v) (fn x)) (FineModel.set_at w (S (tries x w)) (tries x)) x
      else
        (* 227: try_steal returns nullptr *)
        both (Some (LWorker w false)) (FineModel.FNext (fn x) []) (FineModel.set_at w 0 (tries x)) x
    | BRun _ | BDrainRun _ =>
      (* resume: until the worker has nothing left of what it got *)
      if FineModel.looking w (fn x) then alone (LWorker w c) x
      else both (match DeepModel.moving (fn x) w with Some (d, f) => Some (LPush d (N.to_nat f)) | None => None end)
                (FineModel.fstep (FineModel.FWork w fail) (fn x)) (tries x) x
    | _ => alone (LWorker w c) x
    end
  end.

(** The machine. *)
Definition deep_step (l : dlab) (x : deep) : dres :=
  match l with
  | YWorker w c v fail => if decide (w < n) then thread w c v fail x else DBlock
  | YClient d t => both (Some (LPush d (N.to_nat (RuntimeModel.s_nextf (FineModel.rt (fn x))))))
                        (FineModel.fstep (FineModel.FSpawn d t) (fn x)) (tries x) x
  | YDtor => alone LStop x
  | YJoin => alone LJoin x
  | YStale w => both None (FineModel.fstep (FineModel.FStale w) (fn x)) (tries x) x
  end.
End Deep.
