(** * The fork-join runtime on the real deques.

    RuntimeModel treats a worker's deque as an atomic list.  Here every worker has a deque of
    DequeModel instead (/repo/include/libfork/core/ext/deque.hpp), and push, pop and steal are
    executed one access to shared memory at a time, interleaved with the steps of all other
    workers: the owner's operations with those of any number of thieves.

    What a worker does between its deque operations is [RuntimeModel.wstep].  Where that function
    would look at the worker's deque it is shown
    - at a pop: only the value the pop returned, if any;
    - at the assertions tls::context()->empty() (resume.hpp:54, 56, 74, 76): only if
      empty() (deque.hpp:375-379) is true of the deque at this moment.

    Simplifications, besides those of RuntimeModel (of which "atomic deque" is now dropped) and
    DequeModel:
    - the accesses of a fork to the parent's and the child's frame, which no other worker can
      reach before the parent is in the deque, happen together with the store of push that
      publishes the parent (deque.hpp:403), or with the failing allocation of push;
    - a pop's result is acted on in the same step in which pop returns;
    - the submission list of a worker is atomic. *)

From stdpp Require Import prelude gmap list.
From Coq Require Import NArith.
From Verif Require Import RuntimeModel.
From Verif Require DequeModel.

Notation deque := (DequeModel.deque N).

(** The runtime's state (the deques in it are not used, they are empty); the deque of each
    worker (context.hpp:108, m_tasks); the worker that worker [i] is stealing from. *)
Record fine := Fine {
  rt : state;
  dq : nat -> deque;
  from : nat -> option nat
}.

Inductive fres := FNext (s : fine) (tr : list event) | FBlocked | FUndef.

Definition set_at {A} (i : nat) (x : A) (f : nat -> A) : nat -> A :=
  fun j => if decide (j = i) then x else f j.

(** All deques of the runtime's state made empty. *)
Definition hide (r : state) : state :=
  mkState (s_frames r) (set_deque [] <$> s_workers r) (s_stacks r) (s_nextf r) (s_nexts r) (s_res r) (s_sem r).
(** Worker [i] is shown the deque [l]. *)
Definition show (i : nat) (l : list N) (r : state) : state :=
  mkState (s_frames r) (alter (set_deque l) i (s_workers r)) (s_stacks r) (s_nextf r) (s_nexts r) (s_res r) (s_sem r).

(** The deque operation worker [i] is about to execute: push of the task [f] at a fork
    (awaitables.hpp:254), pop (promise.hpp:53, awaitables.hpp:57). *)
Inductive dop := NoOp | DoPush (f : N) | DoPop.
Definition next_op (i : nat) (r : state) : dop :=
  match s_workers r !! i with
  | None => NoOp
  | Some w =>
    match w_pc w with
    | PFinal _ | PSelf => DoPop
    | PRun f =>
      match s_frames r !! f with
      | Some fr => match f_rp fr with RRun (Fork _ _ _ _) => DoPush f | _ => NoOp end
      | None => NoOp
      end
    | _ => NoOp
    end
  end.

(** The runtime's step [x], together with a step of the deques. *)
Definition after (x : res) (d : nat -> deque) (a : nat -> option nat) : fres :=
  match x with
  | Next r tr => FNext (Fine (hide r) d a) tr
  | Blocked => FBlocked
  | Undef => FUndef
  end.

(** deque.hpp:375-379 empty(), as shown to the runtime. *)
Definition seen (q : deque) : list N := if DequeModel.is_empty (DequeModel.d_bot q) (DequeModel.d_top q) then [] else [0%N].

(** One step of the deque operation that worker [i] executes on its own deque. *)
Definition op_step (i : nat) (op : option N) (fail : bool) (s : fine) : fres :=
  match DequeModel.owner op fail (dq s i) with
  | DequeModel.Undef => FUndef
  | DequeModel.Next q ev =>
    let d := set_at i q (dq s) in
    match ev with
    | [DequeModel.ELin _ (DequeModel.DPush _) DequeModel.RThrow] =>
      (* push throws: the child is destroyed and the fork expression throws *)
      after (wstep i true (show i [] (rt s))) d (from s)
    | [DequeModel.ELin _ (DequeModel.DPush _) _] =>
      (* the parent is in the deque: the child starts *)
      after (wstep i false (show i [] (rt s))) d (from s)
    | [DequeModel.ERet _ (DequeModel.RSome v)] => after (wstep i fail (show i [v] (rt s))) d (from s)
    | [DequeModel.ERet _ DequeModel.REmpty] =>
      (* context.hpp:141-146: nullptr.  After try_self_stealing the worker returns to resume(...),
         which asserts that empty() is true; the model checks it after every pop that finds
         nothing *)
      match seen q with
      | [] => after (wstep i fail (show i [] (rt s))) d (from s)
      | _ => FUndef
      end
    | _ => FNext (Fine (rt s) d (from s)) []
    end
  end.

(** Worker [i], not stealing.  [fail]: an allocation made by this step fails; at a fork that is
    about to push: the allocation of the child (promise.hpp:156). *)
Definition own_step (i : nat) (fail : bool) (s : fine) : fres :=
  match DequeModel.d_own (dq s i) with
  | DequeModel.OIdle =>
    match next_op i (rt s) with
    | NoOp => after (wstep i fail (show i (seen (dq s i)) (rt s))) (dq s) (from s)
    | DoPush f =>
      if fail then after (wstep i true (show i (seen (dq s i)) (rt s))) (dq s) (from s)
      else op_step i (Some f) false s
    | DoPop => op_step i None false s
    end
  | _ => op_step i None fail s
  end.

(** Worker [i] has stolen [f] (context.hpp:90; resume(task_handle) comes next). *)
Definition got (i : nat) (f : N) (r : state) : state :=
  mkState (s_frames r) (alter (set_pc (PStolen f)) i (s_workers r)) (s_stacks r) (s_nextf r) (s_nexts r) (s_res r) (s_sem r).

(** A step of the steal of worker [i] from worker [v]. *)
Definition steal_step (i v : nat) (s : fine) : fres :=
  match DequeModel.thief i (dq s v) with
  | DequeModel.Undef => FUndef
  | DequeModel.Next q ev =>
    let d := set_at v q (dq s) in
    match ev with
    | [DequeModel.ELin _ _ (DequeModel.RSome f)] => FNext (Fine (got i f (rt s)) d (from s)) []
    | [DequeModel.ERet _ _] => FNext (Fine (rt s) d (set_at i None (from s))) []
    | _ => FNext (Fine (rt s) d (from s)) []
    end
  end.

(** A worker is between two tasks, with nothing submitted to it in hand. *)
Definition looking (i : nat) (s : fine) : bool :=
  match s_workers (rt s) !! i, DequeModel.d_own (dq s i), from s i with
  | Some w, DequeModel.OIdle, None =>
    match w_pc w, w_batch w with PIdle, [] => true | _, _ => false end
  | _, _, _ => false
  end.

(** Scheduling decisions: a step of worker [i]; it takes its submission list; it begins to steal
    from [v]; an outside thread submits a root task to worker [d]; a step of worker [i] whose load of the
    counter of joins is outdated (RuntimeModel.stale). *)
Inductive flabel :=
| FWork (i : nat) (fail : bool)
| FTake (i : nat)
| FSteal (i v : nat)
| FSpawn (d : nat) (t : task)
| FStale (i : nat).

Definition fstep (l : flabel) (s : fine) : fres :=
  match l with
  | FWork i fail => match from s i with Some v => steal_step i v s | None => own_step i fail s end
  | FTake i => if looking i s then after (take i (rt s)) (dq s) (from s) else FBlocked
  | FSteal i v =>
    if decide (i = v) then FBlocked
    else match s_workers (rt s) !! v with
         | None => FBlocked
         | Some _ => if looking i s then steal_step i v (Fine (rt s) (dq s) (set_at i (Some v) (from s))) else FBlocked
         end
  | FSpawn d t => after (spawn d t (rt s)) (dq s) (from s)
  | FStale i =>
    match from s i, DequeModel.d_own (dq s i) with
    | None, DequeModel.OIdle => after (stale i (rt s)) (dq s) (from s)
    | _, _ => FBlocked
    end
  end.

(** [nw] idle workers with empty deques of capacity [2^k] (deque.hpp:266, 277: 1024, k = 10). *)
Definition finit (nw k : nat) : fine :=
  Fine (init nw) (fun _ => DequeModel.init (2 ^ Z.of_nat k)) (fun _ => None).

(** Run a list of scheduling decisions; the trace is in order of occurrence. *)
Fixpoint frun (ls : list flabel) (s : fine) (tr : list event) : option (fine * list event) :=
  match ls with
  | [] => Some (s, tr)
  | l :: ls' =>
    match fstep l s with
    | FNext s' tr' => frun ls' s' (tr ++ tr')
    | _ => None
    end
  end.
