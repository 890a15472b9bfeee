(** * What a user may rely on: programs on busy_pool and unit_pool. *)

From stdpp Require Import prelude gmap list.
From Coq Require Import NArith.
From Verif Require Import PoolCommon BusyModel BWholeModel.
From Verif Require RuntimeModel RuntimeSpec RuntimeTermSpec.

Section Spec.
Context (n : nat) (unit : bool) (af : bool).

(** Allocations fail only if [af]; submitted programs follow the rules of the library. *)
Definition legal (l : wlab) : Prop :=
  match l with
  | XWorker _ _ _ fail => fail = true -> af = true
  | XClient _ t => RuntimeSpec.well_scoped n t
  | _ => True
  end.

(** Worker [w] runs a task whose next action is to move to worker [d]. *)
Definition about_to_move (w d : nat) (x : whole) : Prop :=
  exists wk f fr skip t, RuntimeModel.s_workers (rt x) !! w = Some wk /\ RuntimeModel.w_pc wk = RuntimeModel.PRun f /\
    RuntimeModel.s_frames (rt x) !! f = Some fr /\ RuntimeModel.f_rp fr = RuntimeModel.RRun (RuntimeModel.Switch skip d t).

(** The pool is used as documented (busy_pool.hpp:122-123): once its destructor has been called
    nobody submits to it, and no task moves from one of its workers to another one.  On
    unit_pool there is no other worker. *)
Definition documented (l : wlab) (x : whole) : Prop :=
  stop (pool x) = true ->
  match l with
  | XWorker w _ _ _ => forall d, about_to_move w d x -> d = w
  | XClient _ _ => False
  | _ => True
  end.

(** What can happen on a pool of [n] workers; if it is used as documented. *)
Inductive wreach : whole -> Prop :=
| wreach_init : wreach (init_whole n)
| wreach_step x l x' : wreach x -> legal l -> whole_step n unit l x = WNext x' -> wreach x'.
Inductive dreach : whole -> Prop :=
| dreach_init : dreach (init_whole n)
| dreach_step x l x' : dreach x -> legal l -> documented l x -> whole_step n unit l x = WNext x' -> dreach x'.

(** Infinite executions: at each time a step of some thread, or nothing. *)
Record wrun (sg : nat -> whole) (l : nat -> option wlab) : Prop := WRun {
  wr_init : sg 0 = init_whole n;
  wr_step : forall i, match l i with
                      | Some x => legal x /\ documented x (sg i) /\ whole_step n unit x (sg i) = WNext (sg (i + 1))
                      | None => sg (i + 1) = sg i
                      end
}.

(** The scheduler of the operating system is fair: each worker thread makes a step again and
    again unless it cannot; so does the destructor once it joins. *)
Record wfair (sg : nat -> whole) (l : nat -> option wlab) : Prop := WFair {
  wf_run : wrun sg l;
  wf_worker : forall w i, w < n -> exists j, i <= j /\
    ((exists c v fail, l j = Some (XWorker w c v fail)) \/
     forall c v fail, legal (XWorker w c v fail) -> whole_step n unit (XWorker w c v fail) (sg j) = WBlock);
  wf_join : forall i, exists j, i <= j /\ (l j = Some XJoin \/ whole_step n unit XJoin (sg j) = WBlock)
}.

(** Program [t] was submitted to the pool as task [f]. *)
Definition submitted (f : N) (t : RuntimeModel.task) (x : whole) : Prop :=
  RuntimeSpec.parent_in f (hist x) = None /\ RuntimeSpec.body_in f (hist x) = Some t.

(** Task [f] is done: the thread that waits for it has been released; its result is the one
    the program has if it is run by itself. *)
Definition finished (f : N) (t : RuntimeModel.task) (x : whole) : Prop :=
  RuntimeSpec.signals_in f (hist x) = 1%N /\
  exists o, RuntimeModel.s_res (rt x) !! f = Some o /\ RuntimeSpec.eval af t o.

(** No thread submits new programs after time [N]. *)
Definition submissions_end (N : nat) (l : nat -> option wlab) : Prop :=
  forall i d t, N <= i -> l i <> Some (XClient d t).

(** All programs submitted in the execution terminate. *)
Definition all_terminate (sg : nat -> whole) : Prop :=
  forall i f t, submitted f t (sg i) -> RuntimeTermSpec.terminates af t.
End Spec.
