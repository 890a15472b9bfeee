(** * Infinite executions of the runtime on the real deques, and the loop of a pool's worker. *)

From stdpp Require Import prelude gmap list.
From Coq Require Import NArith ZArith.
From Verif Require Import RuntimeModel RuntimeSpec FineModel FineSpec.

(** An infinite execution without further submissions: at each time one scheduling decision, or
    nothing. *)
Definition endless (nw : nat) (af : bool) (x : nat -> fine * history) (c : nat -> option flabel) : Prop :=
  forall n,
    match c n with
    | None => x (S n) = x n
    | Some l => fallowed nw af l /\ (forall d t, l <> FSpawn d t) /\
        exists tr, fstep l (x n).1 = FNext (x (S n)).1 tr /\ (x (S n)).2 = rev tr ++ (x n).2
    end.

(** The step [l] is made by worker [i]. *)
Definition by_worker (i : nat) (l : flabel) : Prop :=
  match l with FWork j _ => j = i | FTake j => j = i | FSteal j _ => j = i | FSpawn _ _ => False | FStale j => j = i end.

(** Worker [i] has nothing to do: it is between two tasks and its submission list is empty.  It may
    try to steal. *)
Definition nothing_to_do (i : nat) (s : fine) : Prop :=
  fstep (FWork i false) s = FBlocked /\ fstep (FTake i) s = FBlocked.

(** At time [n] worker [i] looks at its submission list: it takes what is there, or sees that it is
    empty. *)
Definition polls (x : nat -> fine * history) (c : nat -> option flabel) (i n : nat) : Prop :=
  c n = Some (FTake i) \/ (looking i (x n).1 = true /\ fstep (FTake i) (x n).1 = FBlocked).

(** How many steals worker [i] begins at the times [n], ..., [n + d - 1]. *)
Fixpoint steals_in (c : nat -> option flabel) (i n d : nat) : nat :=
  match d with
  | O => 0
  | S d' => steals_in c i n d' +
      match c (n + d') with Some (FSteal j _) => if decide (j = i) then 1 else 0 | _ => 0 end
  end.

(** The workers run the loop of a pool (busy_pool.hpp:95-105, lazy_pool.hpp:192-211,
    unit_pool.hpp:48-53):
    - no worker stops forever, unless it has nothing to do;
    - a worker does not try to steal more than [K] times without looking at its submission list
      (numa_context.hpp:210-225: one round of steals).
    Nothing is said about the victims of steals, nor that a steal ever succeeds. *)
Record pool_loop (K : nat) (x : nat -> fine * history) (c : nat -> option flabel) : Prop := {
  pl_works i n : is_Some (s_workers (rt (x n).1) !! i) -> exists m, n <= m /\ ((exists l, c m = Some l /\ by_worker i l) \/ nothing_to_do i (x m).1);
  pl_polls i n d : (forall j, n <= j < n + d -> ~ polls x c i j) -> steals_in c i n d <= K
}.
