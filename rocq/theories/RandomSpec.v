(** * What a user may rely on: the random number generator. *)

From Coq Require Import NArith List.
From Verif Require Import RandomModel.
Local Open Scope N_scope.

(** Four 64-bit words. *)
Definition is_state (m : state) : Prop := s0 m < 2 ^ 64 /\ s1 m < 2 ^ 64 /\ s2 m < 2 ^ 64 /\ s3 m < 2 ^ 64.

(** The state after [k] calls of operator(). *)
Definition after (k : N) (m : state) : state := N.iter k (fun m => fst (next m)) m.
