(** * What a user may rely on: busy_pool and unit_pool. *)

From stdpp Require Import prelude list.
From Verif Require Import PoolCommon PoolFair PoolSpec BusyModel.

Section Spec.
Context (n : nat) (unit : bool).

(** Fair executions: workers keep running unless they cannot; the destructor joins
    when it can, once it has been called. *)
Record fair (sg : nat -> st) (l : nat -> option lab) : Prop := Fair {
  fr_run : run (step n unit) init sg l;
  fr_worker : forall w, w < n -> fair_to (step n unit) (fun x => exists c, x = LWorker w c) sg l;
  fr_join : fair_to (step n unit) (fun x => x = LJoin) sg l
}.

(** From time [i] on no job is submitted and nothing is stolen. *)
Definition work_ends (i : nat) (sg : nat -> st) (l : nat -> option lab) : Prop :=
  forall j, i <= j ->
    (forall w x, ~ emits (step n unit) sg l j (EvPush w x)) /\
    (forall w c, l j = Some (LWorker w c) -> pc (sg j) w = BSteal -> c = false).
End Spec.
