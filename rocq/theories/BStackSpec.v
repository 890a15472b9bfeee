(** * Executions of busy_pool and unit_pool with the real deques and the real stacks. *)

From stdpp Require Import prelude gmap list.
From Coq Require Import NArith.
From Verif Require Import PoolCommon BusyModel BDeepModel BDeepSpec BStackModel.
From Verif Require RuntimeModel StackSpec StackModel RStackModel FineModel.

Section Spec.
Context (n : nat) (unit : bool) (K k : nat) (af : bool).

(** Allocations fail only if [af]; submitted programs follow the rules of the library; coroutine frames have
    at most 2^64 - 4192 bytes. *)
Definition slegal (b : slab) : Prop := legal n af (s_lab b) /\ (s_sz b <= StackSpec.max_request)%N.

(** The memory when the [n] threads of the pool have got their stacks. *)
Definition booted (m : RStackModel.mem) : Prop :=
  exists os, length os = n /\ RStackModel.boot os (RStackModel.Mem ∅ [] ∅) = Some m.

(** What can happen; if [doc], on a pool that is used as documented. *)
Inductive sreach (doc : bool) : deep -> RStackModel.mem -> Prop :=
| sreach_init m : booted m -> sreach doc (init_deep n k) m
| sreach_step x m b x' m' :
    sreach doc x m -> slegal b -> (doc = true -> documented (s_lab b) x) ->
    sstep n unit K b x m = SNext x' m' -> sreach doc x' m'.

(** Infinite executions of a pool that is used as documented: at each time a step of some thread, or
    nothing. *)
Record srun (sg : nat -> deep) (mm : nat -> RStackModel.mem) (l : nat -> option slab) : Prop := SRun {
  sr_init : sg 0 = init_deep n k /\ booted (mm 0);
  sr_step : forall i, match l i with
                      | Some b => slegal b /\ documented (s_lab b) (sg i) /\
                                  sstep n unit K b (sg i) (mm i) = SNext (sg (i + 1)) (mm (i + 1))
                      | None => sg (i + 1) = sg i /\ mm (i + 1) = mm i
                      end
}.

(** The scheduler of the operating system is fair: each worker thread makes a step again and again unless it
    cannot, whatever malloc answers; so does the destructor once it joins. *)
Definition makes (l : option slab) (d : dlab) : Prop := exists b, l = Some b /\ s_lab b = d.
Record sfair (sg : nat -> deep) (mm : nat -> RStackModel.mem) (l : nat -> option slab) : Prop := SFair {
  sf_run : srun sg mm l;
  sf_worker : forall w i, w < n -> exists j, i <= j /\
    ((exists c v fail, makes (l j) (YWorker w c v fail)) \/
     forall c v fail, legal n af (YWorker w c v fail) -> deep_step n unit K (YWorker w c v fail) (sg j) = DBlock);
  sf_join : forall i, exists j, i <= j /\ (makes (l j) YJoin \/ deep_step n unit K YJoin (sg j) = DBlock)
}.

(** No thread submits new programs after time [N]. *)
Definition ssubmissions_end (N : nat) (l : nat -> option slab) : Prop :=
  forall i d t, N <= i -> ~ makes (l i) (YClient d t).

(** Memory is given back: destroying the stacks of the workers fails no assertion and frees every block. *)
Definition all_freed (m : RStackModel.mem) : Prop :=
  RStackModel.halt (RStackModel.m_fib m) (RStackModel.m_heap m) = StackModel.Ret ∅ tt.
End Spec.
