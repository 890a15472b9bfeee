(** * What a user may rely on: for_each and fold run by the fork-join runtime. *)

From stdpp Require Import prelude list.
From Coq Require Import ZArith.
From Verif Require Import RuntimeModel RuntimeSpec RuntimeTermSpec AlgoTaskModel.

Section Spec.
(** [af]: allocations may fail. *)
Context (af : bool).

(** [u x] may have the outcome [o]. *)
Definition may_give {A} (u : ufun A) (x : A) (o : outcome) : Prop :=
  match u with USync f => o = f x | UAsync f => eval af (f x) o end.

(** [u] computes the function [g], or throws one of [E]. *)
Definition computes {A} (E : exn -> Prop) (u : ufun A) (g : A -> Z) : Prop :=
  forall x o, may_give u x o -> match o with OVal v => v = g x | OExc e => E e end.

(** If [u] is an async function then it follows the rules of the library, on [nw] workers. *)
Definition follows_rules {A} (nw : nat) (u : ufun A) : Prop :=
  match u with USync _ => True | UAsync f => forall x, well_scoped nw (f x) end.

(** [u] terminates. *)
Definition ends {A} (u : ufun A) : Prop :=
  match u with USync _ => True | UAsync f => forall x, terminates af (f x) end.

(** The library itself may throw this. *)
Definition no_memory (e : exn) : Prop := af = true /\ e = EBadAlloc.
End Spec.

(** The left fold of a range; nothing if it is empty. *)
Definition left_fold (op : Z -> Z -> Z) (p : Z -> Z) (xs : list Z) : option Z :=
  match xs with
  | [] => None
  | x :: xs => Some (fold_left (fun a y => op a (p y)) xs (p x))
  end.

(** A way to tell the tasks of an execution apart: calls of the user's function, with the
    argument; calls of other functions the user supplied; tasks of the algorithm. *)
Inductive label := LUser (v : Z) | LOther | LInternal.

(** The calls of the user's function in a call tree and their outcomes, from left to right. *)
Fixpoint user_calls (lab : task -> label) (T : calltree) : list (Z * outcome) :=
  let 'Node t o Ts := T in
  match lab t with
  | LUser v => [(v, o)]
  | LOther => []
  | LInternal => concat (map (user_calls lab) Ts)
  end.

Definition returned (o : outcome) : Prop := exists v, o = OVal v.

(** [lab] tells the tasks of for_each apart: the task that runs [fn v] is marked with [key v], and
    neither the tasks of the projection nor for_each's own are mistaken for it. *)
Record labelling (fn : Z -> task) (pj : ufun Z) (lab : task -> label) (key : Z -> Z) : Prop := Labelling {
  lb_fn : forall v, lab (fn v) = LUser (key v);
  lb_pj : forall f x, pj = UAsync f -> lab (f x) = LOther;
  lb_n : forall n ys, 0 < n -> lab (for_each_n (UAsync fn) pj n ys) = LInternal;
  lb_1 : forall ys, lab (for_each_1 (UAsync fn) pj ys) = LInternal;
  lb_range : forall n ys, lab (for_each (UAsync fn) pj n ys) = LInternal
}.

(** for_each over [xs], where [q x] is the mark of the call for element [x], ended with [o] and
    made the calls [cs].  Either it returned, every element was visited exactly once, the calls in
    the tree are in the order of the range, and all of them returned; or it threw an exception of
    one of these calls, of the projection, or because memory ran out, and still no element was
    visited twice. *)
Definition visits (af : bool) (E : exn -> Prop) (q : Z -> Z) (xs : list Z) (o : outcome) (cs : list (Z * outcome)) : Prop :=
  (o = OVal 0%Z /\ map fst cs = map q xs /\ Forall (fun c => returned c.2) cs) \/
  (exists e, o = OExc e /\ map fst cs `sublist_of` map q xs /\
     ((exists v, (v, OExc e) ∈ cs) \/ E e \/ no_memory af e)).

(** An ordinary function. *)
Definition ordinary {A} (u : ufun A) : Prop := match u with USync _ => True | UAsync _ => False end.
