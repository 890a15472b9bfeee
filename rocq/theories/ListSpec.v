(** * Specification of the submission list, in terms of traces. *)

From stdpp Require Import prelude list.
From Verif Require Import ListModel.

Section spec.
Context {V : Type}.

(** The values in the order in which their pushes took effect, oldest first. *)
Fixpoint pushed (h : list (lev V)) : list V :=
  match h with
  | EPushed _ v :: h' => pushed h' ++ [v]
  | _ :: h' => pushed h'
  | [] => []
  end.
(** The values the consumer saw, oldest first. *)
Fixpoint seen (h : list (lev V)) : list V :=
  match h with
  | EElem v :: h' => seen h' ++ [v]
  | _ :: h' => seen h'
  | [] => []
  end.
(** The values whose pushes had taken effect when the last try_pop_all did. *)
Fixpoint before_pop (h : list (lev V)) : list V :=
  match h with
  | EPopAll :: h' => pushed h'
  | _ :: h' => before_pop h'
  | [] => []
  end.

(** What producer [i] is doing: the events of each producer are call - effect -
    return, with one value. *)
Inductive prod_phase := NotPushing | Pushing (v : V) | HasPushed (v : V).
Inductive pphase (i : nat) : list (lev V) -> prod_phase -> Prop :=
| pp_nil : pphase i [] NotPushing
| pp_call v h : pphase i h NotPushing -> pphase i (EPushCall i v :: h) (Pushing v)
| pp_pushed v h : pphase i h (Pushing v) -> pphase i (EPushed i v :: h) (HasPushed v)
| pp_ret v h : pphase i h (HasPushed v) -> pphase i (EPushRet i :: h) NotPushing
| pp_call' j v h p : j <> i -> pphase i h p -> pphase i (EPushCall j v :: h) p
| pp_pushed' j v h p : j <> i -> pphase i h p -> pphase i (EPushed j v :: h) p
| pp_ret' j h p : j <> i -> pphase i h p -> pphase i (EPushRet j :: h) p
| pp_pop h p : pphase i h p -> pphase i (EPopAll :: h) p
| pp_elem v h p : pphase i h p -> pphase i (EElem v :: h) p
| pp_done h p : pphase i h p -> pphase i (EDone :: h) p.
End spec.
Arguments prod_phase : clear implicits.
