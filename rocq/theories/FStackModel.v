(** * The runtime on the real deques and the real segmented stacks.

    FineModel puts the runtime on the work-stealing deques of deque.hpp, one step for each access to
    shared memory; RStackModel puts it on the segmented stacks of stack.hpp.  Here both at once:
    a step is a step of FineModel, and if it is one in which the runtime gets ahead (and not only a
    deque), the stack code that the library runs at that place runs on the heap of stacklets.

    Simplifications, besides those of the two models: the child of a fork is allocated
    (promise.hpp:156) when the push of its parent takes effect or throws (awaitables.hpp:254).  In the code
    the allocation comes before the push; the accesses of the push touch no stacklet, and no other thread
    can reach the child's frame or the worker's stack in between. *)

From stdpp Require Import prelude gmap list.
From Coq Require Import NArith.
From Verif Require Import RuntimeModel FineModel RStackModel.
From Verif Require DequeModel StackModel.
Local Open Scope N_scope.

(** A scheduling decision; the size of the frame the step creates, if it does; malloc's answers. *)
Record clabel := CL { c_lab : flabel; c_sz : N; c_o1 : option N; c_o2 : option N; c_o3 : option N }.

(** What the runtime sees of a step of its deque operation (FineModel.op_step): if it fails, if that is
    because the deque could not grow, and what it is shown of the deque.  [None]: the runtime waits for
    the operation to go on. *)
Definition commit_op (op : option N) (fail : bool) (q : deque) : option (bool * bool * list N) :=
  match DequeModel.owner op fail q with
  | DequeModel.Next _ [DequeModel.ELin _ (DequeModel.DPush _) DequeModel.RThrow] => Some (true, true, [])
  | DequeModel.Next _ [DequeModel.ELin _ (DequeModel.DPush _) _] => Some (false, false, [])
  | DequeModel.Next _ [DequeModel.ERet _ (DequeModel.RSome v)] => Some (fail, false, [v])
  | DequeModel.Next _ [DequeModel.ERet _ DequeModel.REmpty] => Some (fail, false, [])
  | _ => None
  end.

(** The same for a step of worker [i], not stealing (FineModel.own_step). *)
Definition commit (i : nat) (fail : bool) (x : fine) : option (bool * bool * list N) :=
  match DequeModel.d_own (dq x i) with
  | DequeModel.OIdle =>
    match next_op i (rt x) with
    | NoOp => Some (fail, false, seen (dq x i))
    | DoPush f => if fail then Some (true, false, seen (dq x i)) else commit_op (Some f) false (dq x i)
    | DoPop => commit_op None false (dq x i)
    end
  | _ => commit_op None fail (dq x i)
  end.

Definition with_answers (c : clabel) (l : label) (push : bool) : rlabel :=
  RL l (c_sz c) (c_o1 c) (c_o2 c) (c_o3 c) push.

(** The stack code of a step. *)
Definition cacts (c : clabel) (x : fine) : list act :=
  match c_lab c with
  | FWork i fail =>
    match from x i with
    | Some _ => []
    | None =>
      match commit i fail x with
      | Some (fl, push, l) => acts (with_answers c (LWork i fl) push) (show i l (rt x))
      | None => []
      end
    end
  | FTake _ | FSteal _ _ => []
  | FSpawn d t => acts (with_answers c (LSpawn d t) false) (rt x)
  | FStale i => acts (with_answers c (LStale i) false) (rt x)
  end.

(** One step; [CTerm] is std::terminate.  A call of schedule() that throws changes nothing but the heap. *)
Inductive cres := CNext (x : fine) (m : mem) (tr : list event) | CBlocked | CTerm | CUndef.

Definition cstep (c : clabel) (x : fine) (m : mem) : cres :=
  match fstep (c_lab c) x with
  | FBlocked => CBlocked
  | FUndef => CUndef
  | FNext x' tr =>
    match execs (cacts c x) m with
    | MOk m' => CNext x' m' tr
    | MThr m' => CNext x m' []
    | MNo => CBlocked
    | MTerm => CTerm
    | MUb => CUndef
    end
  end.
