(** * What a user may rely on: programs on lazy_pool. *)

From stdpp Require Import prelude gmap list.
From Coq Require Import NArith.
From Verif Require Import PoolCommon LazyModel WholeModel.
From Verif Require RuntimeModel RuntimeSpec RuntimeTermSpec.

Section Spec.
Context (n nd : nat) (dom : nat -> nat) (af : bool).

(** Allocations fail only if [af]; submitted programs follow the rules of the library. *)
Definition legal (l : wlab) : Prop :=
  match l with
  | XWorker _ _ _ fail => fail = true -> af = true
  | XClient _ _ t => RuntimeSpec.well_scoped n t
  | _ => True
  end.

(** What can happen on a pool of [n] workers. *)
Inductive wreach : whole -> Prop :=
| wreach_init : wreach (init_whole n)
| wreach_step x l x' : wreach x -> legal l -> whole_step n nd dom l x = WNext x' -> wreach x'.

(** Infinite executions: at each time a step of some thread, or nothing. *)
Record wrun (sg : nat -> whole) (l : nat -> option wlab) : Prop := WRun {
  wr_init : sg 0 = init_whole n;
  wr_step : forall i, match l i with
                      | Some x => legal x /\ whole_step n nd dom x (sg i) = WNext (sg (i + 1))
                      | None => sg (i + 1) = sg i
                      end
}.

(** The scheduler of the operating system is fair: each worker thread makes a step again and
    again, except while it is asleep; so do the threads outside the pool while they are inside
    a call that submits a program, and the destructor except while it waits. *)
Record wfair (sg : nat -> whole) (l : nat -> option wlab) : Prop := WFair {
  wf_run : wrun sg l;
  wf_worker : forall w i, w < n -> exists j, i <= j /\
    ((exists c v fail, l j = Some (XWorker w c v fail)) \/
     forall c v fail, legal (XWorker w c v fail) -> whole_step n nd dom (XWorker w c v fail) (sg j) = WBlock);
  wf_client : forall a i, n <= a -> ag (pool (sg i)) a <> AIdle -> exists j d t, i <= j /\ l j = Some (XClient a d t);
  wf_dtor : forall i, dt (pool (sg i)) <> DIdle -> exists j, i <= j /\
    (l j = Some XDtor \/ whole_step n nd dom XDtor (sg j) = WBlock)
}.

(** Program [t] was submitted to the pool as task [f]. *)
Definition submitted (f : N) (t : RuntimeModel.task) (x : whole) : Prop :=
  RuntimeSpec.parent_in f (hist x) = None /\ RuntimeSpec.body_in f (hist x) = Some t.

(** The thread that waits for task [f] has been released. *)
Definition released (f : N) (x : whole) : Prop := RuntimeSpec.signals_in f (hist x) = 1%N.

(** The pool is used as documented from time [N] on: no thread submits new programs after
    time [N], and the pool is destroyed only when all that was submitted to it is done. *)
Record proper (N : nat) (sg : nat -> whole) (l : nat -> option wlab) : Prop := Proper {
  pr_end : forall i a d t, N <= i -> l i = Some (XClient a d t) -> ag (pool (sg i)) a <> AIdle;
  pr_dtor : forall i f t, dt (pool (sg i)) <> DIdle -> submitted f t (sg i) -> released f (sg i)
}.

(** All programs submitted in the execution terminate. *)
Definition all_terminate (sg : nat -> whole) : Prop :=
  forall i f t, submitted f t (sg i) -> RuntimeTermSpec.terminates af t.
End Spec.
