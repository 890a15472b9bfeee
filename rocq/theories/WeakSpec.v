(** * Specification: the deque on a machine with store buffers. *)

From stdpp Require Import prelude list.
From Verif Require Import DequeModel DequeSpec WeakModel.

Section spec.
Context {V : Type}.
Implicit Types h : list (dev V).

(** The calls and returns of [h] are linearizable, except that a steal may report "empty"
    although there are items: [contents] (DequeSpec.v) lets it. *)
Definition linearizable_up_to_empty h : Prop :=
  exists h' q, calls_returns h' = calls_returns h /\ contents h' q /\ forall w, exists p, in_phase w h' p.

(** The stores to m_bottom that have not reached memory. *)
Fixpoint bottoms (l : list (write V * bool)) : nat :=
  match l with
  | [] => O
  | (WBot _, _) :: l' => S (bottoms l')
  | _ :: l' => bottoms l'
  end.

End spec.
