(** * Specification of segmented stacks as seen by their users.

    Independent of how stacklets are organised: a client sees, for every stack
    object, the list of its live allocations (newest first), and must use them
    in FILO order. *)

From stdpp Require Import gmap list numbers.
From Verif Require Import StackModel.
Local Open Scope N_scope.

(** A live allocation: its address, the number of bytes asked for, and the value
    of [top()] just after it was made (what a coroutine frame remembers as its
    stacklet, promise.hpp:290, awaitables.hpp:212). *)
Record alloc := Alloc { a_ptr : N; a_size : N; a_top : N }.

(** For each stack object: its live allocations, newest first. *)
Notation client := (gmap nat (list alloc)).

(** What the documentation asks of the caller ("deallocate in FILO order",
    "should only be destructed at the root", stack.hpp:250,279,306), and, so that
    no size computation wraps, that requests stay 4192 bytes below 2^64 (the exact limit,
    see stack_limit_is_exact). *)
Definition max_request : N := 2 ^ 64 - 4192.

Definition legal (c : client) (o : op) : Prop :=
  match o with
  | ONew h _ => c !! h = None
  | ODestroy h => c !! h = Some []
  | OAlloc h size _ => is_Some (c !! h) /\ size <= max_request
  | ODealloc h p => exists a l, c !! h = Some (a :: l) /\ p = a_ptr a
  | ORelease h t _ => is_Some (c !! h) /\ c !! t = None
  | OAdopt h t => h <> t /\ c !! h = Some [] /\ is_Some (c !! t)
  | OEmpty h | OTop h => is_Some (c !! h)
  end.

(** How the client's view changes, given the observed result and the [top()]
    observed afterwards. *)
Definition client_step (c : client) (o : op) (r : out) (top : nat -> option N) : client :=
  match o, r with
  | ONew h _, RUnit => <[h := []]> c
  | ODestroy h, RUnit => delete h c
  | OAlloc h size _, RPtr p =>
      match c !! h, top h with
      | Some l, Some t => <[h := Alloc p size t :: l]> c
      | _, _ => c
      end
  | ODealloc h _, RUnit =>
      match c !! h with Some (_ :: l) => <[h := l]> c | _ => c end
  | ORelease h t _, RPtr _ =>
      match c !! h with Some l => <[t := l]> (<[h := []]> c) | None => c end
  | OAdopt h t, RUnit =>
      match c !! t with Some l => <[h := l]> (delete t c) | None => c end
  | _, _ => c
  end.

(** [top()] of every stack object of a world. *)
Definition tops (w : world) (h : nat) : option N := wst w !! h.

(** Worlds reachable by clients that obey the protocol, with the client's view. *)
Inductive reach : world -> client -> Prop :=
| reach_init : reach init ∅
| reach_step w c o w' r :
    reach w c -> legal c o -> step w o = (w', r) ->
    reach w' (client_step c o r (tops w')).

(** Address ranges used by live allocations. *)
Definition overlap (a b : alloc) : Prop :=
  a_ptr a < a_ptr b + a_size b /\ a_ptr b < a_ptr a + a_size a.

(** Running a list of operations while tracking the client's view. *)
Fixpoint run_client (w : world) (c : client) (os : list op) : world * client :=
  match os with
  | [] => (w, c)
  | o :: r => let '(w1, x) := step w o in run_client w1 (client_step c o x (tops w1)) r
  end.
