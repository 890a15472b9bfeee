(** * When may a task still run although no future refers to it?  In terms of histories
    (newest event first). *)

From stdpp Require Import prelude list.
From Verif Require Import EventuallyModel FutureModel FutureSpec.

(** Task [i] was scheduled. *)
Definition scheduled (i : nat) (h : list ev) : Prop := exists x k e, EvScheduled x i k e ∈ h.

(** No future refers to the result of task [i]. *)
Definition unreferenced (i : nat) (h : list ev) : Prop := forall x, refers x h <> Some i.

(** The client called detach() on the future of task [i]. *)
Definition detached (i : nat) (h : list ev) : Prop :=
  exists h1 x h0, h = h1 ++ EvDetached x :: h0 /\ refers x h0 = Some i.

(** Another future was move-assigned to the future of task [i]. *)
Definition overwritten (i : nat) (h : list ev) : Prop :=
  exists h1 y z h0, h = h1 ++ EvMoved y z :: h0 /\ y <> z /\ refers y h0 = Some i.
