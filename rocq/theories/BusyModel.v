(** * Model of busy_pool and unit_pool.

    Code: /repo/include/libfork/schedule/busy_pool.hpp (busy_work, ~busy_pool) and
    unit_pool.hpp (work, ~unit_pool).  Same conventions and simplifications as in
    LazyModel. *)

From stdpp Require Import prelude list.
From Verif Require Import PoolCommon.

(** Program counters of a worker (busy_pool.hpp:86-111, unit_pool.hpp:48-57). *)
Inductive wpc :=
| BTest                              (* the loop condition *)
| BPop | BSteal
| BRun (h : handle)
| BDrain                             (* the second loop *)
| BDrainRun (h : handle)
| XStop | XArrive | XLatch | XDone.  (* busy_pool.hpp:86-91 *)

Record st := St {
  stop : bool;
  arrived : nat;
  q : nat -> list job;
  pc : nat -> wpc;
  dt : bool                          (* the destructor has returned *)
}.

Section Pool.
(** The number of workers; [unit]: unit_pool, which has one worker, does not steal and
    has no latch. *)
Context (n : nat) (unit : bool).

Definition set_pc w p s := St (stop s) (arrived s) (q s) (fset w p (pc s)) (dt s).
Definition set_q w v s := St (stop s) (arrived s) (fset w v (q s)) (pc s) (dt s).

Definition worker (w : nat) (steal : bool) (s : st) : outcome st :=
  match pc s w with
  | BTest => Next (set_pc w (if stop s then BDrain else BPop) s) []
  | BPop =>
    match q s w with
    | [] => Next (set_pc w (if unit then BTest else BSteal) s) []
    | js => Next (set_pc w (BRun js) (set_q w [] s)) []
    end
  | BSteal => Next (set_pc w (if steal then BRun [] else BTest) s) []
  | BRun h => Next (set_pc w BTest s) [EvRun w h]
  | BDrain =>
    match q s w with
    | [] => Next (set_pc w (if unit then XDone else XStop) s) []
    | js => Next (set_pc w (BDrainRun js) (set_q w [] s)) []
    end
  | BDrainRun h => Next (set_pc w BDrain s) [EvRun w h]
  | XStop => Next (set_pc w XArrive (St true (arrived s) (q s) (pc s) (dt s))) (if stop s then [] else [EvStop])
  | XArrive => Next (set_pc w XLatch (St (stop s) (S (arrived s)) (q s) (pc s) (dt s))) []
  | XLatch => if decide (arrived s = n) then Next (set_pc w XDone s) [] else Blocked
  | XDone => Blocked
  end.

(** Labels: a worker; somebody schedules a job; the destructor sets stop
    (busy_pool.hpp:204, unit_pool.hpp:78); it has joined all threads. *)
Inductive lab := LWorker (w : nat) (steal : bool) | LPush (w : nat) (j : job) | LStop | LJoin.

Definition step (l : lab) (s : st) : outcome st :=
  match l with
  | LWorker w c => if decide (w < n) then worker w c s else Blocked
  | LPush w j => if decide (w < n) then Next (set_q w (q s w ++ [j]) s) [EvPush w j] else Blocked
  | LStop => Next (St true (arrived s) (q s) (pc s) (dt s)) (if stop s then [] else [EvStop])
  | LJoin =>
    if decide (stop s = true) then
      if forallb (fun u => match pc s u with XDone => true | _ => false end) (seq 0 n)
      then Next (St (stop s) (arrived s) (q s) (pc s) true) [] else Blocked
    else Blocked
  end.

Definition init : st := St false 0 (fun _ => []) (fun _ => BTest) false.

Inductive reach : st -> list pev -> Prop :=
| reach_init : reach init []
| reach_step s h l s' tr : reach s h -> step l s = Next s' tr -> reach s' (rev tr ++ h).
End Pool.
