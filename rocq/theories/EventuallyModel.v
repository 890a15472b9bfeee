(** * Model of [lf::basic_eventually].

    Code: /repo/include/libfork/core/eventually.hpp (whole file).

    Simplifications:
    - Values, exceptions and referenced objects are named by numbers; a moved-from
      value or exception pointer is [None].
    - Constness and value categories are dropped, except that [*std::move(e)] and
      [std::move(e).exception()] followed by a move of the result are separate
      operations ([OMoveOut], [OMoveExc]).
    - [LF_ASSERT] failing and reading a union member that is not active are the
      distinct result [RUB]. *)

From stdpp Require Import prelude list.

(** eventually.hpp:91-93: is_void, is_ref_value, is_val_value. *)
Inductive kind := KVoid | KRef | KVal.
#[global] Instance kind_eq_dec : EqDecision kind.
Proof. solve_decision. Defined.
(** The template arguments (78-80): the kind of [T] and [Exception]. *)
Record variant := Variant { v_kind : kind; v_exc : bool }.

(** eventually.hpp:98 *)
Definition implicit_state (x : variant) : bool :=
  match v_kind x, v_exc x with
  | KRef, false => true
  | KVoid, true => true
  | _, _ => false
  end.

(** eventually.hpp:100-113 *)
Inductive state := SEmpty | SValue | SException.

(** eventually.hpp:115-119: the active member of the union.  [UPtr] is [m_value]
    for references, [UVal] for values; [UVoid] is [m_empty].  [UDead]: the object has
    been destroyed. *)
Inductive union :=
| UVoid
| UVal (v : option nat)
| UPtr (p : option nat)
| UExc (e : option nat)
| UDead.

(** eventually.hpp:115-123; [c_flag] is [None] for the types without [m_flag]. *)
Record cell := Cell { c_u : union; c_flag : option state }.

(** Lifetimes of the stored objects: constructed and destroyed values, and
    acquired and released (or handed on by a move) references to exceptions. *)
Inductive life :=
| LVal (v : nat) | LValEnd
| LExc (e : nat) | LExcEnd (e : nat) | LExcGiven (e : nat).

Inductive op :=
| OEmpty | OHasValue | OHasException
| OAssign (v : nat)            (* e = v *)
| OAssignThrow (x : nat)       (* e = v, but the constructor of T throws x *)
| OStash (x : nat)             (* stash_exception(e) while handling x *)
| ODeref                       (* *e, e-> *)
| OMoveOut                     (* T y = *std::move(e) *)
| OException                   (* e.exception() *)
| OMoveExc.                    (* auto x = std::move(e).exception() *)

Inductive res :=
| RBool (b : bool) | RVal (v : option nat) | RExc (x : option nat)
| RUnit | RThrow (x : nat) | RUB.

(** Which members exist (the requires clauses, 231, 244, 266-267, 282-283, 302,
    344, 378, 434). *)
Definition available (x : variant) (o : op) : bool :=
  match o with
  | OEmpty => true
  | OHasValue | OAssign _ | ODeref | OMoveOut => negb (bool_decide (v_kind x = KVoid))
  | OAssignThrow _ => bool_decide (v_kind x = KVal)
  | OHasException | OStash _ | OException | OMoveExc => v_exc x
  end.

(** eventually.hpp:157-173 *)
Definition construct (x : variant) : cell :=
  if implicit_state x then
    if v_exc x then Cell (UExc None) None else Cell (UPtr None) None
  else Cell UVoid (Some SEmpty).

(** eventually.hpp:216-226; [None] is undefined behaviour. *)
Definition empty_ (x : variant) (c : cell) : option bool :=
  if implicit_state x then
    if v_exc x then match c_u c with UExc e => Some (match e with None => true | _ => false end) | _ => None end
    else match c_u c with UPtr p => Some (match p with None => true | _ => false end) | _ => None end
  else match c_flag c with Some SEmpty => Some true | Some _ => Some false | None => None end.

(** eventually.hpp:231-239 *)
Definition has_value (x : variant) (c : cell) : option bool :=
  if implicit_state x then
    match c_u c with UPtr p => Some (match p with None => false | _ => true end) | _ => None end
  else match c_flag c with Some SValue => Some true | Some _ => Some false | None => None end.

(** eventually.hpp:244-258 *)
Definition has_exception (x : variant) (c : cell) : option bool :=
  if implicit_state x then
    match c_u c with UExc e => Some (match e with None => false | _ => true end) | _ => None end
  else match c_flag c with Some SException => Some true | Some _ => Some false | None => None end.

(** [m_flag = s] where the code assigns it unless [implicit_state]. *)
Definition set_flag (x : variant) (s : state) (c : cell) : option state :=
  if implicit_state x then c_flag c else Some s.

(** eventually.hpp:132-143 (stash_exception), 268-273 (operator= for values),
    284-294 (operator= for references), 301-335 (exception), 343-443 (-> and the
    operators * ). *)
Definition step (x : variant) (c : cell) (o : op) : cell * res * list life :=
  let ub := (c, RUB, []) in
  match o with
  | OEmpty => match empty_ x c with Some b => (c, RBool b, []) | None => ub end
  | OHasValue => match has_value x c with Some b => (c, RBool b, []) | None => ub end
  | OHasException => match has_exception x c with Some b => (c, RBool b, []) | None => ub end
  | OAssign v =>
      match empty_ x c with
      | Some true =>
          match v_kind x with
          | KVal => (Cell (UVal (Some v)) (Some SValue), RUnit, [LVal v])
          | KRef => (Cell (UPtr (Some v)) (set_flag x SValue c), RUnit, [])
          | KVoid => ub
          end
      | _ => ub
      end
  | OAssignThrow e =>
      match empty_ x c with
      | Some true => (Cell UVoid (c_flag c), RThrow e, [])
      | _ => ub
      end
  | OStash e =>
      match empty_ x c with
      | Some true => (Cell (UExc (Some e)) (set_flag x SException c), RUnit, [LExc e])
      | _ => ub
      end
  | ODeref =>
      match has_value x c, c_u c with
      | Some true, UVal v => (c, RVal v, [])
      | Some true, UPtr p => (c, RVal p, [])
      | _, _ => ub
      end
  | OMoveOut =>
      match has_value x c, c_u c with
      | Some true, UVal v => (Cell (UVal None) (c_flag c), RVal v, [])
      | Some true, UPtr p => (c, RVal p, [])
      | _, _ => ub
      end
  | OException =>
      match has_exception x c, c_u c with
      | Some true, UExc e => (c, RExc e, [])
      | _, _ => ub
      end
  | OMoveExc =>
      match has_exception x c, c_u c with
      | Some true, UExc e =>
          (Cell (UExc None) (c_flag c), RExc e, match e with Some e => [LExcGiven e] | None => [] end)
      | _, _ => ub
      end
  end.

(** eventually.hpp:181-208; destroying a null exception pointer has no effect. *)
Definition destroy (x : variant) (c : cell) : option (cell * list life) :=
  let drop e := match e with Some e => [LExcEnd e] | None => [] end in
  if implicit_state x then
    if v_exc x then match c_u c with UExc e => Some (Cell UDead None, drop e) | _ => None end
    else Some (Cell UDead None, [])
  else
    match c_flag c with
    | Some SEmpty => Some (Cell UDead (c_flag c), [])
    | Some SValue =>
        match v_kind x, c_u c with
        | KVal, UVal _ => Some (Cell UDead (c_flag c), [LValEnd])
        | KRef, UPtr _ => Some (Cell UDead (c_flag c), [])
        | _, _ => None
        end
    | Some SException =>
        if v_exc x then match c_u c with UExc e => Some (Cell UDead (c_flag c), drop e) | _ => None end
        else None
    | None => None
    end.

(** A history: operations with their results, newest first, and the life-times,
    newest first. *)
Inductive run (x : variant) : cell -> list (op * res) -> list life -> Prop :=
| run_new : run x (construct x) [] []
| run_op c h l o c' r l' :
    run x c h l -> available x o = true -> step x c o = (c', r, l') ->
    run x c' ((o, r) :: h) (rev l' ++ l).
