(** * for_each and fold as programs of the fork-join runtime.

    Code: /repo/include/libfork/algorithm/{for_each,fold}.hpp.

    AlgoModel.v gives the algorithms a semantics of their own; here they are tasks of the
    runtime model (RuntimeModel.v), so that they can be submitted to the models of the pools.

    Simplifications.
    - A range is the list of its elements, which are integers; nobody changes it during the run.
    - Accumulators are integers as well.
    - Assertions: the chunk size [n] is positive (for_each.hpp:48) and for the chunked fold
      greater than one (fold.hpp:57); both are hypotheses of the theorems. *)

From stdpp Require Import prelude list.
From Coq Require Import ZArith.
From Verif Require Import RuntimeModel.
Local Open Scope nat_scope.

(** A user's function: an ordinary function, which returns or throws, or an async function. *)
Inductive ufun (A : Type) :=
| USync (f : A -> outcome)
| UAsync (f : A -> task).
Arguments USync {A} f.
Arguments UAsync {A} f.

(** co_await just(u)(x): call_just (just.hpp:148-174) calls an ordinary function at once and
    makes a call of an async one. *)
Definition use {A} (u : ufun A) (x : A) (k : outcome -> task) : task :=
  match u with
  | USync f => k (f x)
  | UAsync f => just (f x) k
  end.

(** [try_ k]: an exception leaves the body of the task. *)
Definition try_ (k : Z -> task) (o : outcome) : task :=
  match o with OVal v => k v | OExc e => Throw e end.

(** [both c1 c2 k]: co_await fork(c1); try { co_await call(c2) } catch { stash };
    co_await join; k (for_each.hpp:67-79, 104-114; fold.hpp:90-100, 135-145).  The results of
    the children are passed to [k].  An exception thrown by the fork expression itself leaves
    the body; nothing has been forked then. *)
Definition both_join (k : list cell -> task) : task :=
  Join (fun cs r => match r with Some e => Throw e | None => k cs end).
Definition both_call (c2 : task) (k : list cell -> task) : task :=
  Call MNone false c2 (fun r => match r with CDone _ => both_join k | CExn e => Stash e (both_join k) end).
Definition both_k (c2 : task) (k : list cell -> task) (r : fres) : task :=
  match r with FExn e => Throw e | FAsync | FDone _ => both_call c2 k end.

Definition both (c1 c2 : task) (k : list cell -> task) : task := Fork FNone false c1 (both_k c2 k).

(** ** for_each *)

Section for_each.
Context (fn pj : ufun Z).

(** for_each.hpp:58-63: the loop over a chunk. *)
Fixpoint each (xs : list Z) : task :=
  match xs with
  | [] => Ret 0%Z
  | x :: xs => use pj x (try_ (fun v => use fn v (try_ (fun _ => each xs))))
  end.

(** for_each.hpp:38-81. *)
CoFixpoint for_each_n (n : nat) (xs : list Z) : task :=
  let len := length xs in
  if decide (len = 0) then Ret 0%Z
  else if decide (len <= n) then each xs
  else
    let mid := len / 2 in
    both (for_each_n n (firstn mid xs)) (for_each_n n (skipn mid xs)) (fun _ => Ret 0%Z).

(** for_each.hpp:86-116: the version for n = 1. *)
CoFixpoint for_each_1 (xs : list Z) : task :=
  match xs with
  | [] => Ret 0%Z
  | [x] => use pj x (try_ (fun v => use fn v (try_ (fun _ => Ret 0%Z))))
  | _ =>
    let mid := length xs / 2 in
    both (for_each_1 (firstn mid xs)) (for_each_1 (skipn mid xs)) (fun _ => Ret 0%Z)
  end.

(** for_each.hpp:123-140: the range version. *)
Definition for_each (n : nat) (xs : list Z) : task :=
  if decide (n = 1) then just (for_each_1 xs) (try_ (fun _ => Ret 0%Z))
  else just (for_each_n n xs) (try_ (fun _ => Ret 0%Z)).
End for_each.

(** ** fold *)

Section fold.
Context (bop : ufun (Z * Z)) (pj : ufun Z).
(** What reading an empty [eventually] does; it is undefined in the code.  The theorems hold for
    every [ub] and show that it does not happen. *)
Context (ub : exn).
(** How a std::optional is represented by an integer. *)
Context (opt : option Z -> Z).

(** fold.hpp:65-78: the loop over a chunk, after the first element.  The asynchronous case uses
    eager_throw_outside; as promise.hpp:217 tests the wrong condition (C13) an exception of the
    operation is not rethrown there. *)
Fixpoint fold_loop (lhs : Z) (xs : list Z) : task :=
  match xs with
  | [] => Ret lhs
  | x :: xs => use pj x (try_ (fun v =>
      match bop with
      | USync f => try_ (fun w => fold_loop w xs) (f (lhs, v))
      | UAsync g => Call MEagerOutside false (g (lhs, v)) (fun r =>
          match r with
          | CDone (CVal w) => fold_loop w xs
          | CDone _ => fold_loop lhs xs
          | CExn e => Throw e
          end)
      end))
  end.

(** fold.hpp:100-106, 145-149: combine the results of the two halves. *)
Definition combine (cs : list cell) : task :=
  match cs with
  | [CVal a; CVal b] => use bop (a, b) (try_ Ret)
  | _ => Throw ub
  end.

(** fold.hpp:54-107. *)
CoFixpoint fold_n (n : nat) (xs : list Z) : task :=
  let len := length xs in
  if decide (len <= n) then
    match xs with
    | [] => Throw ub
    | x :: xs => use pj x (try_ (fun v => fold_loop v xs))
    end
  else
    let mid := len / 2 in
    both (fold_n n (firstn mid xs)) (fold_n n (skipn mid xs)) combine.

(** fold.hpp:115-151: the version for n = 1. *)
CoFixpoint fold_1 (xs : list Z) : task :=
  match xs with
  | [] => Throw ub
  | [x] => use pj x (try_ Ret)
  | _ =>
    let mid := length xs / 2 in
    both (fold_1 (firstn mid xs)) (fold_1 (skipn mid xs)) combine
  end.

(** fold.hpp:166-203: the overload set. *)
Definition fold (n : nat) (xs : list Z) : task :=
  match xs with
  | [] => Ret (opt None)
  | _ =>
    if decide (n = 1) then just (fold_1 xs) (try_ (fun v => Ret (opt (Some v))))
    else just (fold_n n xs) (try_ (fun v => Ret (opt (Some v))))
  end.
End fold.
