(** * Common definitions for the models of the thread pools. *)

From stdpp Require Import prelude list.

Definition fset {B} (i : nat) (x : B) (f : nat -> B) : nat -> B := fun j => if decide (j = i) then x else f j.

Notation job := nat (only parsing).
Notation handle := (list job) (only parsing).   (* what resume gets: submitted jobs, or a stolen task [] *)

Inductive pev :=
| EvPush (w : nat) (j : job)
| EvRun (w : nat) (js : list job)
| EvStop.

Inductive outcome (S : Type) := Next (s : S) (tr : list pev) | Undef | Blocked.
Arguments Next {S} _ _. Arguments Undef {S}. Arguments Blocked {S}.
