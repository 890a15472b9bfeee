(** * Threads outside a pool that submit to it: the accesses to the pool's generator of random numbers.

    Code: /repo/include/libfork/schedule/busy_pool.hpp:194 and lazy_pool.hpp:371 (schedule),
    schedule/ext/random.hpp:130-145 (xoshiro::operator()), core/ext/context.hpp:70-78 and
    core/ext/list.hpp:81-94 (schedule of a worker's context).

    Simplifications: the stores to the node that is submitted, and what the workers do, are left out (C54
    and C22 have them); the push to the submission list is one action.  It has release semantics only
    (list.hpp:90), so it orders nothing that a later submitter does. *)

From stdpp Require Import prelude list.

(** The actions of a thread: reading or writing a word of the generator's state (not atomic); the push to the
    list of a worker; locking and unlocking a mutex of the client. *)
Inductive act := Rd (w : nat) | Wr (w : nat) | Push (d : nat) | Lock | Unlock.

(** xoshiro::operator(), random.hpp:132-142, from left to right and top to bottom. *)
Definition draw : list act :=
  [Rd 1; Rd 1;                 (* 132, 133 *)
   Rd 0; Rd 2; Wr 2;           (* 135 *)
   Rd 1; Rd 3; Wr 3;           (* 136 *)
   Rd 2; Rd 1; Wr 1;           (* 137 *)
   Rd 3; Rd 0; Wr 0;           (* 138 *)
   Rd 2; Wr 2;                 (* 140 *)
   Rd 3; Wr 3].                (* 142 *)

(** What a thread calls: schedule of the pool, which draws [k + 1] numbers (std::uniform_int_distribution
    draws until a number is in range) and submits to worker [d]; or schedule of the context of worker [d]
    (obtained from contexts()). *)
Inductive call := PoolCall (k d : nat) | ContextCall (d : nat).

(** The actions of a call; [mutex]: clients make their calls under a mutex. *)
Definition body (c : call) : list act :=
  match c with
  | PoolCall k d => concat (repeat draw (S k)) ++ [Push d]   (* busy_pool.hpp:194, lazy_pool.hpp:371 *)
  | ContextCall d => [Push d]                                (* context.hpp:70-78 *)
  end.
Definition actions (mutex : bool) (c : call) : list act :=
  if mutex then Lock :: body c ++ [Unlock] else body c.

(** What each thread has still to do in its call; who holds the mutex; what happened, oldest first. *)
Record st := St { todo : nat -> list act; held : option nat; log : list (nat * act) }.
Definition init : st := St (fun _ => []) None [].
Definition set_at (t : nat) (l : list act) (f : nat -> list act) : nat -> list act := fun u => if decide (u = t) then l else f u.

(** Thread [t] begins a call, or makes its next action. *)
Inductive lab := Begin (t : nat) (c : call) | Act (t : nat).
Definition step (mutex : bool) (l : lab) (s : st) : option st :=
  match l with
  | Begin t c =>
    match todo s t with
    | [] => Some (St (set_at t (actions mutex c) (todo s)) (held s) (log s))
    | _ => None
    end
  | Act t =>
    match todo s t with
    | [] => None
    | a :: r =>
      match a, held s with
      | Lock, Some _ => None
      | Lock, None => Some (St (set_at t r (todo s)) (Some t) (log s ++ [(t, a)]))
      | Unlock, _ => Some (St (set_at t r (todo s)) None (log s ++ [(t, a)]))
      | _, _ => Some (St (set_at t r (todo s)) (held s) (log s ++ [(t, a)]))
      end
    end
  end.
