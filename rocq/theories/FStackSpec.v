(** * Executions of the runtime on the real deques and the real stacks. *)

From stdpp Require Import prelude gmap list.
From Coq Require Import NArith.
From Verif Require Import RuntimeModel RuntimeSpec FineModel FineSpec RStackModel FStackModel.
From Verif Require StackSpec.
Local Open Scope N_scope.

(** [nw] workers with deques of capacity [2^k] are started; then programs that follow the rules are
    submitted and run, under any interleaving of the accesses to shared memory, with any sizes of coroutine
    frames up to 2^64 - 4192 bytes and any answers of malloc.  [h] is the history of events, newest
    first. *)
Inductive creach (nw k : nat) (af : bool) : fine -> mem -> history -> Prop :=
| cr_boot os m :
    length os = nw -> boot os (Mem ∅ [] ∅) = Some m -> creach nw k af (finit nw k) m []
| cr_step c x m h x' m' tr :
    creach nw k af x m h -> fallowed nw af (c_lab c) -> c_sz c <= StackSpec.max_request ->
    cstep c x m = CNext x' m' tr -> creach nw k af x' m' (rev tr ++ h).
