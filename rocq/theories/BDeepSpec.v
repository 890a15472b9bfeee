(** * What a user may rely on: programs on busy_pool and unit_pool with the real deques. *)

From stdpp Require Import prelude gmap list.
From Coq Require Import NArith.
From Verif Require Import PoolCommon BusyModel BDeepModel.
From Verif Require RuntimeModel RuntimeSpec RuntimeTermSpec FineModel FineSpec.

Section Spec.
Context (n : nat) (unit : bool) (K k : nat) (af : bool).

(** Allocations fail only if [af]; submitted programs follow the rules of the library. *)
Definition legal (l : dlab) : Prop :=
  match l with
  | YWorker _ _ _ fail => fail = true -> af = true
  | YClient _ t => RuntimeSpec.well_scoped n t
  | _ => True
  end.

(** Worker [w] runs a task whose next action is to move to worker [d]. *)
Definition about_to_move (w d : nat) (x : deep) : Prop :=
  exists wk f fr skip t, RuntimeModel.s_workers (FineModel.rt (fn x)) !! w = Some wk /\ RuntimeModel.w_pc wk = RuntimeModel.PRun f /\
    RuntimeModel.s_frames (FineModel.rt (fn x)) !! f = Some fr /\ RuntimeModel.f_rp fr = RuntimeModel.RRun (RuntimeModel.Switch skip d t).

(** The pool is used as documented (busy_pool.hpp:122-123): once its destructor has been called
    nobody submits to it, and no task moves from one of its workers to another one. *)
Definition documented (l : dlab) (x : deep) : Prop :=
  stop (pool x) = true ->
  match l with
  | YWorker w _ _ _ => forall d, about_to_move w d x -> d = w
  | YClient _ _ => False
  | _ => True
  end.

(** What can happen on a pool of [n] workers; if it is used as documented. *)
Inductive reach : deep -> Prop :=
| reach_init : reach (init_deep n k)
| reach_step x l x' : reach x -> legal l -> deep_step n unit K l x = DNext x' -> reach x'.
Inductive dreach : deep -> Prop :=
| dreach_init : dreach (init_deep n k)
| dreach_step x l x' : dreach x -> legal l -> documented l x -> deep_step n unit K l x = DNext x' -> dreach x'.

(** Infinite executions: at each time a step of some thread, or nothing. *)
Record drun (sg : nat -> deep) (l : nat -> option dlab) : Prop := DRun {
  dr_init : sg 0 = init_deep n k;
  dr_step : forall i, match l i with
                      | Some x => legal x /\ documented x (sg i) /\ deep_step n unit K x (sg i) = DNext (sg (i + 1))
                      | None => sg (i + 1) = sg i
                      end
}.

(** The scheduler of the operating system is fair: each worker thread makes a step again and
    again unless it cannot; so does the destructor once it joins.  A step is a single access to
    shared memory; nothing is said about the victims of steals, nor that a steal ever succeeds. *)
Record dfair (sg : nat -> deep) (l : nat -> option dlab) : Prop := DFair {
  df_run : drun sg l;
  df_worker : forall w i, w < n -> exists j, i <= j /\
    ((exists c v fail, l j = Some (YWorker w c v fail)) \/
     forall c v fail, legal (YWorker w c v fail) -> deep_step n unit K (YWorker w c v fail) (sg j) = DBlock);
  df_join : forall i, exists j, i <= j /\ (l j = Some YJoin \/ deep_step n unit K YJoin (sg j) = DBlock)
}.

(** Program [t] was submitted to the pool as task [f]. *)
Definition submitted (f : N) (t : RuntimeModel.task) (x : deep) : Prop :=
  RuntimeSpec.parent_in f (hist x) = None /\ RuntimeSpec.body_in f (hist x) = Some t.

(** Task [f] is done: the thread that waits for it has been released; its result is the one
    the program has if it is run by itself. *)
Definition finished (f : N) (t : RuntimeModel.task) (x : deep) : Prop :=
  RuntimeSpec.signals_in f (hist x) = 1%N /\
  exists o, RuntimeModel.s_res (FineModel.rt (fn x)) !! f = Some o /\ RuntimeSpec.eval af t o.

(** No thread submits new programs after time [N]. *)
Definition submissions_end (N : nat) (l : nat -> option dlab) : Prop :=
  forall i d t, N <= i -> l i <> Some (YClient d t).

(** All programs submitted in the execution terminate. *)
Definition all_terminate (sg : nat -> deep) : Prop :=
  forall i f t, submitted f t (sg i) -> RuntimeTermSpec.terminates af t.
End Spec.
