(** * What a user may rely on: programs on lazy_pool with the real deques. *)

From stdpp Require Import prelude gmap list.
From Coq Require Import NArith.
From Verif Require Import PoolCommon LazyModel DeepModel.
From Verif Require RuntimeModel RuntimeSpec RuntimeTermSpec FineModel FineSpec.

Section Spec.
Context (n nd : nat) (dom : nat -> nat) (K k : nat) (af : bool).

(** Allocations fail only if [af]; submitted programs follow the rules of the library. *)
Definition legal (l : dlab) : Prop :=
  match l with
  | YWorker _ _ _ fail => fail = true -> af = true
  | YClient _ _ t => RuntimeSpec.well_scoped n t
  | _ => True
  end.

(** What can happen on a pool of [n] workers. *)
Inductive dreach : deep -> Prop :=
| dreach_init : dreach (init_deep n k)
| dreach_step x l x' : dreach x -> legal l -> deep_step n nd dom K l x = DNext x' -> dreach x'.

(** Infinite executions: at each time a step of some thread, or nothing. *)
Record drun (sg : nat -> deep) (l : nat -> option dlab) : Prop := DRun {
  dr_init : sg 0 = init_deep n k;
  dr_step : forall i, match l i with
                      | Some x => legal x /\ deep_step n nd dom K x (sg i) = DNext (sg (i + 1))
                      | None => sg (i + 1) = sg i
                      end
}.

(** The scheduler of the operating system is fair: each worker thread makes a step again and
    again, except while it is asleep; so do the threads outside the pool while they are inside
    a call that submits a program, and the destructor except while it waits.  A step is a single
    access to shared memory; nothing is said about the victims of steals, nor that a steal ever
    succeeds. *)
Record dfair (sg : nat -> deep) (l : nat -> option dlab) : Prop := DFair {
  df_run : drun sg l;
  df_worker : forall w i, w < n -> exists j, i <= j /\
    ((exists c v fail, l j = Some (YWorker w c v fail)) \/
     forall c v fail, legal (YWorker w c v fail) -> deep_step n nd dom K (YWorker w c v fail) (sg j) = DBlock);
  df_client : forall a i, n <= a -> ag (pool (sg i)) a <> AIdle -> exists j d t, i <= j /\ l j = Some (YClient a d t);
  df_dtor : forall i, dt (pool (sg i)) <> DIdle -> exists j, i <= j /\
    (l j = Some YDtor \/ deep_step n nd dom K YDtor (sg j) = DBlock)
}.

(** Program [t] was submitted to the pool as task [f]. *)
Definition submitted (f : N) (t : RuntimeModel.task) (x : deep) : Prop :=
  RuntimeSpec.parent_in f (hist x) = None /\ RuntimeSpec.body_in f (hist x) = Some t.

(** The thread that waits for task [f] has been released. *)
Definition released (f : N) (x : deep) : Prop := RuntimeSpec.signals_in f (hist x) = 1%N.

(** The outcome of task [f] that this thread then finds. *)
Definition result (f : N) (x : deep) : option RuntimeModel.outcome := RuntimeModel.s_res (FineModel.rt (fn x)) !! f.

(** The pool is used as documented from time [N] on: no thread submits new programs after
    time [N], and the pool is destroyed only when all that was submitted to it is done. *)
Record proper (N : nat) (sg : nat -> deep) (l : nat -> option dlab) : Prop := Proper {
  pr_end : forall i a d t, N <= i -> l i = Some (YClient a d t) -> ag (pool (sg i)) a <> AIdle;
  pr_dtor : forall i f t, dt (pool (sg i)) <> DIdle -> submitted f t (sg i) -> released f (sg i)
}.

(** All programs submitted in the execution terminate. *)
Definition all_terminate (sg : nat -> deep) : Prop :=
  forall i f t, submitted f t (sg i) -> RuntimeTermSpec.terminates af t.
End Spec.
