(** * What an eventually holds, told from its history alone. *)

From stdpp Require Import prelude list.
From Verif Require Import EventuallyModel.

Inductive content := Nothing | Value (v : nat) | Exn (e : nat).

(** The content is what the first successful store put there (newest first). *)
Fixpoint content_of (h : list (op * res)) : content :=
  match h with
  | [] => Nothing
  | (o, r) :: h' =>
      match content_of h', o, r with
      | Nothing, OAssign v, RUnit => Value v
      | Nothing, OStash e, RUnit => Exn e
      | c, _, _ => c
      end
  end.

(** Has the value been moved out of the cell? (References are not.) *)
Definition moved_out (x : variant) (h : list (op * res)) : bool :=
  bool_decide (v_kind x = KVal) &&
  existsb (fun p => match p with (OMoveOut, RVal _) => true | _ => false end) h.
(** Has the exception been moved out? *)
Definition exc_moved (h : list (op * res)) : bool :=
  existsb (fun p => match p with (OMoveExc, RExc _) => true | _ => false end) h.

(** The documented preconditions ("requires that empty() is true",
    "has_value() must be true", "has_exception() must be true"). *)
Definition legal (c : content) (o : op) : Prop :=
  match o with
  | OEmpty | OHasValue | OHasException => True
  | OAssign _ | OAssignThrow _ | OStash _ => c = Nothing
  | ODeref | OMoveOut => exists v, c = Value v
  | OException | OMoveExc => exists e, c = Exn e
  end.

(** The answer every operation must give. *)
Definition answer (c : content) (vmoved emoved : bool) (o : op) : res :=
  match o with
  | OEmpty => RBool (match c with Nothing => true | _ => false end)
  | OHasValue => RBool (match c with Value _ => true | _ => false end)
  | OHasException => RBool (match c with Exn _ => true | _ => false end)
  | OAssign _ | OStash _ => RUnit
  | OAssignThrow e => RThrow e
  | ODeref | OMoveOut => match c with Value v => RVal (if vmoved then None else Some v) | _ => RUB end
  | OException | OMoveExc => match c with Exn e => RExc (if emoved then None else Some e) | _ => RUB end
  end.

(** What becomes of the stored object over the whole life of the cell, oldest
    first: constructed once, destroyed once; a reference to an exception may be
    handed on instead. *)
Definition lifetime (x : variant) (c : content) (emoved : bool) : list life :=
  match c, v_kind x with
  | Nothing, _ => []
  | Value v, KVal => [LVal v; LValEnd]
  | Value _, _ => []
  | Exn e, _ => if emoved then [LExc e; LExcGiven e] else [LExc e; LExcEnd e]
  end.

(** The types the class template accepts (eventually.hpp:79). *)
Definition valid_variant (x : variant) : Prop := v_kind x <> KVoid \/ v_exc x = true.
