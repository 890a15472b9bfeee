(** * Specification of futures, in terms of histories (newest event first). *)

From stdpp Require Import prelude list.
From Verif Require Import EventuallyModel FutureModel.

(** The result future [x] refers to, according to the history: what it was made
    for by schedule or by the last move into it, unless it was since moved from,
    detached or destroyed. *)
Fixpoint refers (x : nat) (h : list ev) : option nat :=
  match h with
  | [] => None
  | EvScheduled y i _ _ :: h' => if decide (x = y) then Some i else refers x h'
  | EvMoved y z :: h' =>
      if decide (y = z) then refers x h'
      else if decide (x = y) then refers z h'
      else if decide (x = z) then None else refers x h'
  | EvDetached y :: h' => if decide (x = y) then None else refers x h'
  | EvDestroyed y _ :: h' => if decide (x = y) then None else refers x h'
  | _ :: h' => refers x h'
  end.

(** What get must deliver for a task that ended with [e]. *)
Definition delivered (e : ending) : got :=
  match e with
  | EndVal v => GVal v
  | EndVoid => GVoid
  | EndExc x | EndCtorExc x => GExc x
  end.

(** Task [i] was scheduled and is to end with [e]. *)
Definition ends_with (i : nat) (e : ending) (h : list ev) : Prop :=
  exists x k, EvScheduled x i k e ∈ h.

(** A get of the result of task [i] has succeeded. *)
Definition already_got (i : nat) (h : list ev) : Prop := exists x g, EvGot x i g ∈ h.
