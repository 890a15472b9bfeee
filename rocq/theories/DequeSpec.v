(** * Specification of a deque shared by an owner and thieves.

    Only traces of calls, linearization points and returns are mentioned; a trace
    is newest first. *)

From stdpp Require Import prelude list.
From Verif Require Import DequeModel.

Section spec.
Context {V : Type}.
Implicit Types h : list (dev V).

(** ** The sequential deque: [q] from the oldest to the newest item *)

Inductive seq_op : dop V -> dres V -> list V -> list V -> Prop :=
| seq_push v q : seq_op (DPush v) RUnit q (q ++ [v])
| seq_throw v q : seq_op (DPush v) RThrow q q
| seq_pop v q : seq_op DPop (RSome v) (q ++ [v]) q
| seq_pop_empty : seq_op DPop REmpty [] []
| seq_steal v q : seq_op DSteal (RSome v) (v :: q) q
| seq_steal_empty q : seq_op DSteal REmpty q q
| seq_steal_lost q : seq_op DSteal RLost q q.

(** The operations of the trace, at their linearization points, are a sequential
    execution from the empty deque to [q]. *)
Inductive contents : list (dev V) -> list V -> Prop :=
| contents_nil : contents [] []
| contents_lin w op r h q q' : contents h q -> seq_op op r q q' -> contents (ELin w op r :: h) q'
| contents_call w op h q : contents h q -> contents (ECall w op :: h) q
| contents_ret w r h q : contents h q -> contents (ERet w r :: h) q.

(** ** Every operation has its linearization point between its call and its
       return, with the result it returns *)

Inductive phase := Idle | Called (op : dop V) | Done (op : dop V) (r : dres V).

(** [in_phase w h p]: the events of [w] in [h] are complete call - linearization -
    return triples followed by what [p] says. *)
Inductive in_phase (w : option nat) : list (dev V) -> phase -> Prop :=
| ph_nil : in_phase w [] Idle
| ph_call op h : in_phase w h Idle -> in_phase w (ECall w op :: h) (Called op)
| ph_lin op r h : in_phase w h (Called op) -> in_phase w (ELin w op r :: h) (Done op r)
| ph_ret op r h : in_phase w h (Done op r) -> in_phase w (ERet w r :: h) Idle
| ph_other_call w' op h p : w' <> w -> in_phase w h p -> in_phase w (ECall w' op :: h) p
| ph_other_lin w' op r h p : w' <> w -> in_phase w h p -> in_phase w (ELin w' op r :: h) p
| ph_other_ret w' r h p : w' <> w -> in_phase w h p -> in_phase w (ERet w' r :: h) p.

(** The owner only pushes and pops, thieves only steal. *)
Definition allowed (w : option nat) (op : dop V) : Prop :=
  match w, op with
  | None, DPush _ | None, DPop | Some _, DSteal => True
  | _, _ => False
  end.

(** ** Linearizability *)

(** As [seq_op], and a steal reports "empty" only if there is no item. *)
Inductive strict : list (dev V) -> list V -> Prop :=
| strict_nil : strict [] []
| strict_lin w op r h q q' :
    strict h q -> seq_op op r q q' -> (op = DSteal -> r = REmpty -> q = []) -> strict (ELin w op r :: h) q'
| strict_call w op h q : strict h q -> strict (ECall w op :: h) q
| strict_ret w r h q : strict h q -> strict (ERet w r :: h) q.

(** The calls and returns of a trace. *)
Fixpoint calls_returns h : list (dev V) :=
  match h with
  | ELin _ _ _ :: h' => calls_returns h'
  | e :: h' => e :: calls_returns h'
  | [] => []
  end.

(** The calls and returns of [h] are linearizable: linearization points can be
    placed so that each operation has one between its call and its return, with the
    result it returns, and in their order the operations are a sequential execution. *)
Definition linearizable h : Prop :=
  exists h' q, calls_returns h' = calls_returns h /\ strict h' q /\ forall w, exists p, in_phase w h' p.

(** ** Values *)

(** Values passed to push. *)
Fixpoint push_calls h : list V :=
  match h with
  | ECall _ (DPush v) :: h' => v :: push_calls h'
  | _ :: h' => push_calls h'
  | [] => []
  end.
(** Values successfully pushed / taken at a linearization point, newest first. *)
Fixpoint pushed h : list V :=
  match h with
  | ELin _ (DPush v) RUnit :: h' => v :: pushed h'
  | _ :: h' => pushed h'
  | [] => []
  end.
Fixpoint taken h : list V :=
  match h with
  | ELin _ _ (RSome v) :: h' => v :: taken h'
  | _ :: h' => taken h'
  | [] => []
  end.
(** The values that pop and steal have handed to their callers. *)
Fixpoint returned h : list V :=
  match h with
  | ERet _ (RSome v) :: h' => v :: returned h'
  | _ :: h' => returned h'
  | [] => []
  end.

(** An item was taken, by somebody else, since the current operation of [w]
    began. *)
Definition took_since (w : option nat) h : Prop :=
  exists h1 h2 w' op v,
    h = h1 ++ ELin w' op (RSome v) :: h2 /\ w' <> w /\
    (forall op', ECall w op' ∉ h1 ++ [ELin w' op (RSome v)]).

End spec.
Arguments phase : clear implicits.
