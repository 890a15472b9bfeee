(** * What the operations of the deque cost: executions, steps of one party, space. *)

From stdpp Require Import prelude gmap list.
From Coq Require Import ZArith.
From Verif Require Import DequeModel DequeSpec.

Section spec.
Context {V : Type}.

(** The scheduling decisions [ls] lead from [s] to [s'] with the events [tr], in order of
    occurrence. *)
Inductive exec : deque V -> list (dlab V) -> deque V -> list (dev V) -> Prop :=
| exec_nil s : exec s [] s []
| exec_cons s l s1 tr1 ls s2 tr2 :
    dstep_of l s = Next s1 tr1 -> exec s1 ls s2 tr2 -> exec s (l :: ls) s2 (tr1 ++ tr2).

(** The party that makes the step: the owner or a thief. *)
Definition party (l : dlab V) : option nat := match l with DOwner _ _ => None | DThief i => Some i end.

(** How many of the steps [w] makes. *)
Fixpoint steps_by (w : option nat) (ls : list (dlab V)) : nat :=
  match ls with
  | [] => 0
  | l :: ls' => (if decide (party l = w) then 1 else 0) + steps_by w ls'
  end.

(** The steps after its call in which an operation ends: push (deque.hpp:384-403) reads m_top and
    m_buf, publishes a bigger buffer, writes the slot and m_bottom, and returns; pop (414-436) writes
    m_bottom, reads m_top, exchanges m_top, restores m_bottom, and returns; steal (441-461) reads
    m_top, m_bottom, m_buf and the slot, exchanges m_top, and returns. *)
Definition bound (op : dop V) : nat := match op with DPush _ => 6 | DPop => 5 | DSteal => 6 end.

(** At some moment of the trace [h] (newest first) the deque held [n] items. *)
Definition held (h : list (dev V)) (n : nat) : Prop :=
  exists h1 h2 q, h = h1 ++ h2 /\ contents h2 q /\ length q = n.

(** The slots of all buffers that exist: the current one and those in m_garbage (deque.hpp:393). *)
Definition slots (s : deque V) : Z := foldr (fun r n => (r_cap r + n)%Z) 0%Z (d_bufs s).

(** The items that a step copies to a bigger buffer: the iterations of the loop in resize
    (deque.hpp:117-119). *)
Definition copied (l : dlab V) (s : deque V) : Z :=
  match l, d_own s with
  | DOwner _ false, OPushBuf _ b t =>
    match d_bufs s !! d_cur s with
    | Some r => if decide (r_cap r < (b - t) + 1)%Z then (b - t)%Z else 0%Z
    | None => 0%Z
    end
  | _, _ => 0%Z
  end.

(** As [DequeModel.reach]; [c]: the number of copied items. *)
Inductive reach_copying (k : nat) : deque V -> list (dev V) -> Z -> Prop :=
| rc_init : reach_copying k (init (2 ^ Z.of_nat k)) [] 0
| rc_step s h c l s' tr :
    reach_copying k s h c -> dstep_of l s = Next s' tr ->
    reach_copying k s' (rev tr ++ h) (c + copied l s).
End spec.
