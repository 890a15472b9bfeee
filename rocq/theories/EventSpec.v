(** * Specification of the event count, in terms of traces (newest first). *)

From stdpp Require Import prelude list.
From Coq Require Import NArith.
From Verif Require Import EventModel.

(** Thread [i] is registered: it has prepared to wait and has neither finished the
    wait nor cancelled. *)
Fixpoint registered (i : nat) (h : list eev) : bool :=
  match h with
  | VPrepare j :: h' => if decide (i = j) then true else registered i h'
  | VUnregister j :: h' => if decide (i = j) then false else registered i h'
  | _ :: h' => registered i h'
  | [] => false
  end.

(** Number of registered threads among the first [n]. *)
Definition n_registered (n : nat) (h : list eev) : nat :=
  length (filter (fun i => registered i h = true) (seq 0 n)).

(** Number of notifications. *)
Fixpoint n_notify (h : list eev) : nat :=
  match h with
  | VNotify _ _ :: h' => S (n_notify h')
  | _ :: h' => n_notify h'
  | [] => 0
  end.

(** What happened since thread [i] last prepared to wait. *)
Fixpoint since_prepare (i : nat) (h : list eev) : list eev :=
  match h with
  | VPrepare j :: h' => if decide (i = j) then [] else VPrepare j :: since_prepare i h'
  | e :: h' => e :: since_prepare i h'
  | [] => []
  end.

(** A notification of all threads is in progress: notify_all has changed the epoch
    and has not returned. *)
Fixpoint notifying_all (i : nat) (h : list eev) : bool :=
  match h with
  | VNotify j all :: h' => if decide (i = j) then all else notifying_all i h'
  | VNotified j :: h' => if decide (i = j) then false else notifying_all i h'
  | _ :: h' => notifying_all i h'
  | [] => false
  end.

(** Thread [i] is inside await. *)
Fixpoint in_await (i : nat) (h : list eev) : bool :=
  match h with
  | VAwaitCall j :: h' => if decide (i = j) then true else in_await i h'
  | VAwaitRet j :: h' => if decide (i = j) then false else in_await i h'
  | VAwaitThrow j _ :: h' => if decide (i = j) then false else in_await i h'
  | _ :: h' => in_await i h'
  | [] => false
  end.

(** The last evaluation of its condition since thread [i] called await. *)
Fixpoint last_cond (i : nat) (h : list eev) : option cond :=
  match h with
  | VCond j c :: h' => if decide (i = j) then Some c else last_cond i h'
  | VAwaitCall j :: h' => if decide (i = j) then None else last_cond i h'
  | _ :: h' => last_cond i h'
  | [] => None
  end.

(** ** States *)

(** Thread [i] is inside wait: it has not yet returned from it. *)
Definition in_wait (i : nat) (s : ecount) : Prop :=
  exists k aw, e_pcs s !! i = Some (EWaiting k aw) \/ e_pcs s !! i = Some (EBlocked k aw).

(** The operating system has put thread [i] to sleep. *)
Definition asleep (i : nat) (s : ecount) : Prop := exists k aw, e_pcs s !! i = Some (EBlocked k aw).

(** Thread [i] is inside an operation of the event count and has been put to sleep
    by nobody: a scheduler that is fair will let it go on. *)
Definition runnable (i : nat) (s : ecount) : Prop :=
  exists p, e_pcs s !! i = Some p /\
    match p with EWaiting _ _ | EUnreg _ | ECancel _ | EWake _ => True | _ => False end.

(** Infinite executions; at some points nothing happens. *)
Record run (n : nat) := Run {
  r_state : nat -> ecount;
  r_hist : nat -> list eev;
  r_lab : nat -> option elab;
  r_init : ereach n (r_state 0%nat) (r_hist 0%nat);
  r_step : forall t,
    match r_lab t with
    | None => r_state (S t) = r_state t /\ r_hist (S t) = r_hist t
    | Some l => exists tr, estep_of l (r_state t) = Next (r_state (S t)) tr /\ r_hist (S t) = rev tr ++ r_hist t
    end
}.
Arguments r_state {n}. Arguments r_hist {n}. Arguments r_lab {n}.

Definition fair {n} (r : run n) : Prop :=
  forall t i, runnable i (r_state r t) -> exists t' c, (t <= t')%nat /\ r_lab r t' = Some (EThread i c).
