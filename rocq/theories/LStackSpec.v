(** * Executions of lazy_pool with the real deques and the real stacks. *)

From stdpp Require Import prelude gmap list.
From Coq Require Import NArith.
From Verif Require Import PoolCommon LazyModel DeepModel DeepSpec LStackModel.
From Verif Require RuntimeModel StackSpec StackModel RStackModel FineModel.

Section Spec.
Context (n nd : nat) (dom : nat -> nat) (K k : nat) (af : bool).

(** Allocations fail only if [af]; submitted programs follow the rules of the library; coroutine frames have
    at most 2^64 - 4192 bytes. *)
Definition slegal (b : slab) : Prop := legal n af (s_lab b) /\ (s_sz b <= StackSpec.max_request)%N.

(** The memory when the [n] threads of the pool have got their stacks. *)
Definition booted (m : RStackModel.mem) : Prop :=
  exists os, length os = n /\ RStackModel.boot os (RStackModel.Mem ∅ [] ∅) = Some m.

(** What can happen. *)
Inductive sreach : deep -> RStackModel.mem -> Prop :=
| sreach_init m : booted m -> sreach (init_deep n k) m
| sreach_step x m b x' m' : sreach x m -> slegal b -> sstep n nd dom K b x m = SNext x' m' -> sreach x' m'.

(** Infinite executions: at each time a step of some thread, or nothing. *)
Record srun (sg : nat -> deep) (mm : nat -> RStackModel.mem) (l : nat -> option slab) : Prop := SRun {
  sr_init : sg 0 = init_deep n k /\ booted (mm 0);
  sr_step : forall i, match l i with
                      | Some b => slegal b /\ sstep n nd dom K b (sg i) (mm i) = SNext (sg (i + 1)) (mm (i + 1))
                      | None => sg (i + 1) = sg i /\ mm (i + 1) = mm i
                      end
}.

(** The scheduler of the operating system is fair: each worker thread makes a step again and again except
    while it is asleep; so do the threads outside the pool while they are inside a call that submits a
    program, and the destructor except while it waits. *)
Definition makes (l : option slab) (d : dlab) : Prop := exists b, l = Some b /\ s_lab b = d.
Record sfair (sg : nat -> deep) (mm : nat -> RStackModel.mem) (l : nat -> option slab) : Prop := SFair {
  sf_run : srun sg mm l;
  sf_worker : forall w i, w < n -> exists j, i <= j /\
    ((exists c v fail, makes (l j) (YWorker w c v fail)) \/
     forall c v fail, legal n af (YWorker w c v fail) -> deep_step n nd dom K (YWorker w c v fail) (sg j) = DBlock);
  sf_client : forall a i, n <= a -> ag (pool (sg i)) a <> AIdle -> exists j d t, i <= j /\ makes (l j) (YClient a d t);
  sf_dtor : forall i, dt (pool (sg i)) <> DIdle -> exists j, i <= j /\
    (makes (l j) YDtor \/ deep_step n nd dom K YDtor (sg j) = DBlock)
}.

(** The pool is used as documented from time [N] on: no thread submits new programs after time [N], and the
    pool is destroyed only when all that was submitted to it is done. *)
Record sproper (N : nat) (sg : nat -> deep) (l : nat -> option slab) : Prop := SProper {
  sp_end : forall i a d t, N <= i -> makes (l i) (YClient a d t) -> ag (pool (sg i)) a <> AIdle;
  sp_dtor : forall i f t, dt (pool (sg i)) <> DIdle -> submitted f t (sg i) -> released f (sg i)
}.

(** Memory is given back: destroying the stacks of the workers fails no assertion and frees every block. *)
Definition all_freed (m : RStackModel.mem) : Prop :=
  RStackModel.halt (RStackModel.m_fib m) (RStackModel.m_heap m) = StackModel.Ret ∅ tt.
End Spec.
