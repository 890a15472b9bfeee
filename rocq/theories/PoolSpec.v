(** * Histories of a thread pool: what a user sees. *)

From stdpp Require Import prelude list.
From Verif Require Import PoolCommon.

(** The jobs scheduled to worker [w], in order (of a chronological history). *)
Fixpoint pushes (w : nat) (t : list pev) : list nat :=
  match t with
  | [] => []
  | EvPush u j :: t => if decide (u = w) then j :: pushes w t else pushes w t
  | _ :: t => pushes w t
  end.

(** The jobs run by worker [w], in order. *)
Fixpoint ran (w : nat) (t : list pev) : list nat :=
  match t with
  | [] => []
  | EvRun u js :: t => if decide (u = w) then js ++ ran w t else ran w t
  | _ :: t => ran w t
  end.

(** The history before the pool is told to stop. *)
Fixpoint upto_stop (t : list pev) : list pev :=
  match t with
  | [] => []
  | EvStop :: _ => []
  | e :: t => e :: upto_stop t
  end.
