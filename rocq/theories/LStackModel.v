(** * lazy_pool, the runtime, the real deques and the real stacks, together.

    As BStackModel.v, with the loop of lazy_pool (DeepModel.v): each step of DeepModel runs the stack code
    (core/ext/stack.hpp, impl/promise.hpp, ext/tls.hpp) of the step of the runtime that it makes, if it
    makes one.

    Simplifications, besides those of DeepModel and FStackModel: the threads of the pool create their stacks
    before the pool does anything else (lazy_pool.hpp:158: worker_init) and destroy them when the destructor
    has joined them (lazy_pool.hpp:168: finalize; RStackModel.halt).  In the code each thread does so at its
    beginning and at its end; nobody uses its stack before or after that. *)

From stdpp Require Import prelude gmap list.
From Coq Require Import NArith.
From Verif Require Import PoolCommon LazyModel DeepModel.
From Verif Require FineModel RStackModel FStackModel.

(** What happens; the size of the coroutine frame it creates, if it does; malloc's answers. *)
Record slab := SL { s_lab : dlab; s_sz : N; s_o1 : option N; s_o2 : option N; s_o3 : option N }.

(** The step of the runtime and the deques that a step of DeepModel makes (DeepModel.thread, deep_step). *)
Definition thread_part (w : nat) (c : choice) (v : nat) (fail : bool) (K : nat) (x : deep) : option FineModel.flabel :=
  match ag (pool x) w with
  | AIdle =>
    match FineModel.from (fn x) w with
    | Some _ => Some (FineModel.FWork w fail)
    | None =>
      match pc (pool x) w with
      | WPop1 | WPop2 _ => match q (pool x) w with [] => None | _ => Some (FineModel.FTake w) end
      | WSteal => if c_steal c && bool_decide (tries x w < K) then Some (FineModel.FSteal w v) else None
      | TRun _ => if FineModel.looking w (fn x) then None else Some (FineModel.FWork w fail)
      | _ => None
      end
    end
  | _ => None
  end.
Definition fine_part (K : nat) (l : dlab) (x : deep) : option FineModel.flabel :=
  match l with
  | YWorker w c v fail => thread_part w c v fail K x
  | YClient a d t => match ag (pool x) a with AIdle => Some (FineModel.FSpawn d t) | _ => None end
  | YDtor | YSpurious _ => None
  | YStale w => Some (FineModel.FStale w)
  end.

Definition with_answers (b : slab) (l : FineModel.flabel) : FStackModel.clabel :=
  FStackModel.CL l (s_sz b) (s_o1 b) (s_o2 b) (s_o3 b).

(** The stack code of a step. *)
Definition stack_part (K : nat) (b : slab) (x : deep) : list RStackModel.act :=
  match fine_part K (s_lab b) x with
  | Some l => FStackModel.cacts (with_answers b l) (fn x)
  | None => []
  end.

(** One step; [STerm] is std::terminate.  If the allocation of a root task throws, nothing is submitted
    (sync_wait.hpp:257-274) and only the heap has changed. *)
Inductive sres := SNext (x : deep) (m : RStackModel.mem) | SBlock | STerm | SUndef.

Definition sstep (n nd : nat) (dom : nat -> nat) (K : nat) (b : slab) (x : deep) (m : RStackModel.mem) : sres :=
  match deep_step n nd dom K (s_lab b) x with
  | DBlock => SBlock
  | DUndef => SUndef
  | DNext x' =>
    match RStackModel.execs (stack_part K b x) m with
    | RStackModel.MOk m' => SNext x' m'
    | RStackModel.MThr m' => SNext x m'
    | RStackModel.MNo => SBlock
    | RStackModel.MTerm => STerm
    | RStackModel.MUb => SUndef
    end
  end.
