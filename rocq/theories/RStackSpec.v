(** * Executions of the runtime on the real stacks, and where frames lie. *)

From stdpp Require Import prelude gmap list.
From Coq Require Import NArith.
From Verif Require Import RuntimeModel RuntimeSpec RStackModel.
From Verif Require StackModel StackSpec.
Local Open Scope N_scope.

(** [nw] workers are started; then programs that follow the rules are submitted and run,
    under any schedule, with any sizes of coroutine frames up to 2^64 - 4192 bytes and any
    answers of malloc.  [h] is the history of events, newest first. *)
Inductive rreach (nw : nat) (af : bool) : state -> mem -> history -> Prop :=
| rr_boot os m :
    length os = nw -> boot os (Mem ∅ [] ∅) = Some m -> rreach nw af (init nw) m []
| rr_step r s m h s' m' tr :
    rreach nw af s m h -> allowed nw af (r_lab r) -> r_sz r <= StackSpec.max_request ->
    rstep r s m = RNext s' m' tr -> rreach nw af s' m' (rev tr ++ h).

(** The frame lies in a live block of the heap, behind the block's header, and its address is
    aligned as operator new must. *)
Definition in_block (m : mem) (fm : fmem) : Prop :=
  exists b s, m_heap m !! b = Some s /\ fm_ptr fm mod 16 = 0 /\
    b + StackModel.sizeof_stacklet <= fm_ptr fm /\ fm_ptr fm + fm_size fm <= StackModel.hi s.

(** No byte belongs to both frames. *)
Definition apart (x y : fmem) : Prop :=
  forall a, ~ (fm_ptr x <= a < fm_ptr x + fm_size x /\ fm_ptr y <= a < fm_ptr y + fm_size y).
