(** * Specification of the runtime on the real deques: executions, and what it means that a state
    of it is a state of the runtime with atomic deques. *)

From stdpp Require Import prelude gmap list.
From Coq Require Import NArith ZArith.
From Verif Require Import RuntimeModel RuntimeSpec FineModel.
From Verif Require DequeModel.

(** ** Executions *)

(** As [RuntimeSpec.allowed]: allocations fail only if [af]; only programs that follow the rules
    are submitted. *)
Definition fallowed (nw : nat) (af : bool) (l : flabel) : Prop :=
  match l with
  | FWork _ fail => fail = true -> af = true
  | FSpawn _ t => well_scoped nw t
  | _ => True
  end.

Inductive freach (nw k : nat) (af : bool) : fine -> history -> Prop :=
| freach_init : freach nw k af (finit nw k) []
| freach_step s h l s' tr :
    freach nw k af s h -> fallowed nw af l -> fstep l s = FNext s' tr ->
    freach nw k af s' (rev tr ++ h).

(** ** What a deque holds *)

(** The contents of the slots between m_top and m_bottom, oldest first. *)
Definition stored (q : deque) : list (option N) :=
  match DequeModel.d_bufs q !! DequeModel.d_cur q with
  | Some r => map (fun j => DequeModel.r_load r (DequeModel.d_top q + Z.of_nat j)%Z)
                  (seq 0 (Z.to_nat (DequeModel.d_bot q - DequeModel.d_top q)))
  | None => []
  end.

(** Worker [i] is not inside push or pop. *)
Definition between (q : deque) : Prop := DequeModel.d_own q = DequeModel.OIdle.

(** ** Agreement with the runtime on atomic deques *)

(** The same worker, but for the deque. *)
Definition same_worker (w w' : worker) : Prop :=
  w_pc w = w_pc w' /\ w_inbox w = w_inbox w' /\ w_batch w = w_batch w' /\ w_stk w = w_stk w'.

(** [x] and [s] have the same tasks, workers, stacks, results and semaphores; and the deque of
    every worker that is not inside push or pop holds the tasks it holds in [s], in the same order
    (RuntimeModel: newest first). *)
Record agrees (x : fine) (s : state) : Prop := {
  a_frames : s_frames (rt x) = s_frames s;
  a_stacks : s_stacks (rt x) = s_stacks s;
  a_nextf : s_nextf (rt x) = s_nextf s;
  a_nexts : s_nexts (rt x) = s_nexts s;
  a_res : s_res (rt x) = s_res s;
  a_sem : s_sem (rt x) = s_sem s;
  a_workers : Forall2 same_worker (s_workers (rt x)) (s_workers s);
  a_deques : forall i w, s_workers s !! i = Some w -> between (dq x i) ->
    stored (dq x i) = map Some (rev (w_deque w))
}.

(** Nobody is inside a deque operation. *)
Definition at_rest (x : fine) : Prop :=
  forall i, between (dq x i) /\ from x i = None /\ forall v, DequeModel.d_thf (dq x v) i = DequeModel.TIdle.
