(** * Specification of the algorithms: what a sequential program would compute. *)

From stdpp Require Import prelude list.
From Coq Require Import ZArith.
From Verif Require Import AlgoModel.
Local Open Scope Z_scope.

Section Spec.
Context {A : Type}.

(** The contents of the addresses [a, b). *)
Definition contents (m : Z -> A) (a b : Z) : list A := (fun l => m l) <$> seqZ a (b - a).

(** Left fold without initial value (std::ranges::fold_left_first). *)
Definition fold_left_first (bop : A -> A -> A) (l : list A) : option A :=
  match l with
  | [] => None
  | x :: l => Some (fold_left bop l x)
  end.

(** Inclusive prefix scan: element i is the fold of the first i+1 elements. *)
Definition inclusive_scan (bop : A -> A -> A) (l : list A) : list (option A) :=
  (fun i => fold_left_first bop (firstn (S i) l)) <$> seq 0 (length l).

(** ** The calls a user can make (the overloads of each algorithm) *)

Definition for_each_call (thr : bool) (fn : A -> A) (fuel : nat) (head tail n : Z) (p : prog A) : Prop :=
  p = for_each thr fn fuel head tail n \/ (n = 1 /\ p = for_each1 thr fn fuel head tail) \/
  p = for_each_range thr fn fuel head tail n.

Definition map_call (thr : bool) (fn : A -> A) (fuel : nat) (head tail out n : Z) (p : prog A) : Prop :=
  p = map thr fn fuel head tail out n \/ (n = 1 /\ p = map1 thr fn fuel head tail out) \/
  p = map_range thr fn fuel head tail out n.

Definition fold_call (thr async : bool) (bop : A -> A -> A) (proj : A -> A) (fuel : nat) (head tail n : Z) (p : prog A) : Prop :=
  p = fold_overload thr async bop proj fuel head tail n.

Definition scan_call (async : bool) (bop : A -> A -> A) (proj : A -> A) (fuel : nat) (head tail out n : Z) (p : prog A) : Prop :=
  p = scan false async bop proj fuel head tail out n.

(** The input [head, tail) and the output starting at [out] are the same range or disjoint. *)
Definition same_or_disjoint (head tail out : Z) : Prop :=
  out = head \/ (forall l, head <= l < tail -> ~ (out <= l < out + (tail - head))).

Definition associative (bop : A -> A -> A) : Prop := forall a b c, bop a (bop b c) = bop (bop a b) c.

(** ** Outcomes *)

(** Undefined behaviour somewhere. *)
Fixpoint undefined (p : prog A) : Prop :=
  match p with
  | Undef => True
  | Bind p _ | Sync p _ => undefined p
  | Par p1 p2 _ => undefined p1 \/ undefined p2
  | _ => False
  end.

Definition finished (p : prog A) : Prop := (exists r, p = Ret r) \/ (exists e, p = Throw e).

(** No execution of [p] from [m] races, has undefined behaviour, exhausts the fuel,
    or accesses memory other than by writing to [W] and reading [W] and [R]. *)
Definition safe (p : prog A) (m : Z -> A) (W R : Z -> Prop) : Prop :=
  forall tr p' m', steps p m tr p' m' ->
    ~ race p' /\ ~ bad p' /\
    (forall l w, (l, w) ∈ next p' -> if w : bool then W l else W l \/ R l) /\
    (forall l, ~ W l -> m' l = m l).

(** Every execution of [p] stops, and when it stops the call is complete. *)
Inductive terminates : prog A -> Prop :=
| terminates_intro p : (forall m o p' m', step p m o p' m' -> terminates p') -> terminates p.

Definition completes (p : prog A) (m : Z -> A) : Prop :=
  terminates p /\
  forall tr p' m', steps p m tr p' m' -> (forall o p'' m'', ~ step p' m' o p'' m'') -> finished p'.

End Spec.
