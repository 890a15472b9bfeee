(** * What a user may rely on: the life of a thread pool. *)

From stdpp Require Import prelude list.
From Verif Require Import PoolCommon LifeModel.

Section Spec.
Context (n : nat) (unit : bool) (client : nat -> bool).

(** A call to schedule begins after the constructor has returned and before the destructor is called.
    (The context is drawn with m_dist from 0 to n-1; for n = 0 the bounds are 0 and 2^64-1.) *)
Definition call_allowed (s : st) (k d : nat) : Prop := opc s k = OIdle -> mpc s = MAlive /\ (0 < n -> d < n).

(** Careful use: moreover the destructor is called when every call to schedule has returned. *)
Definition careful (l : lab) (s : st) : Prop :=
  match l with
  | LOther k d => call_allowed s k d
  | LDtor => forall k, opc s k = OIdle
  | _ => True
  end.

(** What the user can make sure of: the destructor is called when the calls the user's own threads made have returned, and all
    work is done: everything submitted has been taken, and no worker runs a task. *)
Definition all_done (s : st) : Prop :=
  (forall k, client k = true -> opc s k = OIdle) /\ (forall k d, opc s k <> OPush d) /\
  forall w, w < n -> todo s w = 0 /\ wpc s w = WLoop.
Definition visible (l : lab) (s : st) : Prop :=
  match l with
  | LOther k d => call_allowed s k d
  | LDtor => all_done s
  | _ => True
  end.

Inductive reach (P : lab -> st -> Prop) : st -> Prop :=
| reach_init : reach P (init n unit)
| reach_step s l s' : reach P s -> P l s -> step n unit client l s = Next s' -> reach P s'.

(** Each context is constructed, and its owner is somewhere in its loop or running a task. *)
Definition ready (s : st) (w : nat) : Prop := ctx s w = CLive /\ fld s w = true.

(** ** Fair executions: threads keep running unless they cannot. *)
Definition enabled (l : lab) (s : st) : Prop := step n unit client l s <> Blocked.
Record fair (sg : nat -> st) (l : nat -> option lab) : Prop := Fair {
  fr_init : sg 0 = init n unit;
  fr_step : forall i, match l i with
                      | Some x => careful x (sg i) /\ step n unit client x (sg i) = Next (sg (i + 1))
                      | None => sg (i + 1) = sg i
                      end;
  fr_master : forall i, exists j, i <= j /\
    ((exists f, l j = Some (LMaster f)) \/ forall f, ~ enabled (LMaster f) (sg j));
  fr_worker : forall w i, w < n -> exists j, i <= j /\
    ((exists a f, l j = Some (LWorker w a f)) \/ forall a f, ~ enabled (LWorker w a f) (sg j))
}.
End Spec.
