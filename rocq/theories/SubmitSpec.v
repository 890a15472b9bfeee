(** * Data races between threads that submit to a pool. *)

From stdpp Require Import prelude list relations.
From Verif Require Import SubmitModel.

(** Threads make any calls that [ok] allows, interleaved in any way. *)
Inductive reach (mutex : bool) (ok : nat -> call -> Prop) : st -> Prop :=
| reach_init : reach mutex ok init
| reach_step s l s' :
    reach mutex ok s -> match l with Begin t c => ok t c | Act _ => True end -> step mutex l s = Some s' -> reach mutex ok s'.

(** Action [i] of the log is sequenced before action [j]. *)
Definition po (tr : list (nat * act)) (i j : nat) : Prop :=
  i < j /\ exists t a b, tr !! i = Some (t, a) /\ tr !! j = Some (t, b).
(** Unlocking a mutex synchronises with locking it later.  (A push has release but no acquire semantics.) *)
Definition sw (tr : list (nat * act)) (i j : nat) : Prop :=
  i < j /\ exists t u, tr !! i = Some (t, Unlock) /\ tr !! j = Some (u, Lock).
(** Happens-before. *)
Definition hb (tr : list (nat * act)) : nat -> nat -> Prop := tc (fun i j => po tr i j \/ sw tr i j).

(** The word an action touches, and if it writes it. *)
Definition touches (a : act) : option (nat * bool) :=
  match a with Rd w => Some (w, false) | Wr w => Some (w, true) | _ => None end.

(** A data race: two accesses to the same word, not both reads, neither of which happens before the other. *)
Definition race (tr : list (nat * act)) (i j : nat) : Prop :=
  exists t u a b w x y, i < j /\ tr !! i = Some (t, a) /\ tr !! j = Some (u, b) /\
    touches a = Some (w, x) /\ touches b = Some (w, y) /\ (x = true \/ y = true) /\ ~ hb tr i j /\ ~ hb tr j i.
