(** * The memory actions of the fork-join runtime.

    RuntimeModel.v says what a transition of the runtime does to the state; this
    file says which memory the same transition touches, in which order, and with
    which memory orderings.  [acts l s] is the list of memory actions of the
    transition [step l s].

    Files modelled (relative to /repo/include/libfork/core): impl/frame.hpp,
    impl/awaitables.hpp, impl/promise.hpp, impl/return.hpp, impl/stack.hpp,
    ext/resume.hpp, ext/deque.hpp, ext/list.hpp, ext/context.hpp, sync_wait.hpp.

    Simplifications:
    - memory read only by LF_ASSERT is not touched (assertions may be off);
    - a loop of failed compare-exchanges is the final, successful one: a failed one
      is a relaxed load;
    - memory_order_consume (list.hpp:104) is acquire, as in every compiler;
    - the buffer and the slots of the deque are not listed: they are atomic, with
      relaxed accesses (deque.hpp:96, 103), so they neither race nor synchronise;
    - the reference count of a future's shared state is left out;
    - a task has one submission node, [LNode]: in the awaitable for a context switch
      (awaitables.hpp:144), in the shared state for a root (sync_wait.hpp:76). *)

From stdpp Require Import prelude gmap list.
From Coq Require Import NArith.
From Verif Require Import RuntimeModel RuntimeSpec SyncSpec.
Local Open Scope N_scope.

(** deque.hpp:382-404 push, by the owner [i]. *)
Definition push_acts (i : nat) : list action :=
  [Load (OBot i) false; Load (OTop i) true; Fence false true; Store (OBot i) false].

(** deque.hpp:406-438 pop, by the owner [i]; [d] is the contents of the deque.  The
    fence is sequentially consistent, so it is a release and an acquire fence. *)
Definition pop_acts (i : nat) (d : list fid) : list action :=
  [Load (OBot i) false; Store (OBot i) false; Fence true true; Load (OTop i) false] ++
  match d with
  | [] => [Store (OBot i) false]
  | [_] => [Rmw (OTop i) true true; Store (OBot i) false]
  | _ => []
  end.

(** deque.hpp:440-461 steal, from worker [v]. *)
Definition steal_acts (v : nat) : list action :=
  [Load (OTop v) true; Fence true true; Load (OBot v) true; Rmw (OTop v) true true].

(** list.hpp:81-92 push of the node of task [f] on the list of worker [d]. *)
Definition submit_acts (d : nat) (f : fid) : list action :=
  [Load (OInbox d) false; Write (LNode f); Rmw (OInbox d) false true].

(** list.hpp:102-115 try_pop_all of worker [i]; the list holds [fs]. *)
Definition take_acts (i : nat) (fs : list fid) : list action :=
  Rmw (OInbox i) true false :: concat (map (fun f => [Read (LNode f); Write (LNode f)]) fs).

(** promise.hpp:156 operator new on stack [x] and the constructors promise.hpp:285-289,
    frame.hpp:120-131 of task [c]. *)
Definition create_acts (x : sid) (c : fid) : list action :=
  [Write (LStk x); Write (LFrame c); Write (LHdr c); Write (LAt (OJoin c)); Write (LAt (OFlag c))].

Definition cells (f : fid) (n : nat) : list loc := map (LCell f) (seq 0 n).

(** coroutine_handle::destroy: the memory of task [f] is given back to its stack
    (promise.hpp:161); this counts as a write to all of it. *)
Definition destroy_acts (f : fid) (fr : frame) : list action :=
  map Write ([LFrame f; LHdr f; LAt (OJoin f); LAt (OFlag f); LExn f; LNode f] ++
             cells f (length (f_cells fr)) ++ [LStk (f_stk fr)]).

(** frame.hpp:258-268 unsafe_rethrow_if_exception and 93-112 rethrow. *)
Definition rethrow_acts (f : fid) (fr : frame) : list action :=
  Read (LAt (OFlag f)) :: if f_eflag fr then [Write (LExn f); Write (LAt (OFlag f))] else [].

(** frame.hpp:222-234 capture_exception by the task itself. *)
Definition stash_acts (f : fid) (fr : frame) : list action :=
  Rmw (OFlag f) true true :: if f_eflag fr then [] else [Write (LExn f)].

(** awaitables.hpp:412-420 take_stack_reset_frame by a worker whose (empty) stack is [x];
    stack.hpp:225-246: the old stack is swapped into a temporary and freed;
    frame.hpp:206-215 reset: m_join is constructed anew, not atomically. *)
Definition take_stack_acts (x : sid) (f : fid) (fr : frame) : list action :=
  [Read (LHdr f); Write (LStk x); Read (LStk (f_stk fr)); Write (LFrame f); Write (LAt (OJoin f))].

(** awaitables.hpp:489-497 await_resume of a join, then the user's code, which may read
    the results of all children. *)
Definition join_resume_acts (f : fid) (fr : frame) : list action :=
  rethrow_acts f fr ++ map Read (cells f (length (f_cells fr))) ++ [Code f].

(** The user's code looks at the result variable of the last child. *)
Definition last_cell_acts (f : fid) (fr : frame) : list action :=
  match length (f_cells fr) with O => [] | S n => [Read (LCell f n)] end.

(** awaitables.hpp:262-333: await_resume of a fork. *)
Definition fork_resume_acts (seen : bool) (f : fid) (fr : frame) (m : fmod) (st : bool) (pre : N) : list action :=
  match m with
  | FNone => []
  | _ =>
    Read (LFrame f) ::
    if decide (f_steals fr = pre) then
      (if st then
         match m with
         | FSyncOutside => rethrow_acts f fr
         | _ => if decide (f_steals fr = 0) then rethrow_acts f fr else [Load (OFlag f) seen]
         end
       else []) ++ last_cell_acts f fr
    else []
  end ++ [Code f].

(** awaitables.hpp:354-399: await_resume of a call. *)
Definition call_resume_acts (seen : bool) (f : fid) (fr : frame) (m : cmod) (st : bool) : list action :=
  match m, st with
  | MEager, true =>
    Read (LFrame f) :: if decide (f_steals fr = 0) then rethrow_acts f fr else [Load (OFlag f) seen]
  | MEagerOutside, true => rethrow_acts f fr
  | _, _ => []
  end ++ last_cell_acts f fr ++ [Code f].

(** return.hpp:62-75 return_value, then the destructors of the task's variables; or
    promise.hpp:318-330 unhandled_exception, up to the exchange of frame.hpp:224-228. *)
Definition deliver_acts (f : fid) (fr : frame) (o : outcome) : list action :=
  Code f ::
  match f_kind fr with
  | KRoot => [Write (LRes f); Code f]
  | KCall p j st | KFork p j st =>
    match o, st with
    | OExc _, false => [Read (LHdr f); Rmw (OFlag p) true true]
    | _, _ => [Write (LCell p j); Code f]
    end
  end.

(** frame.hpp:231-233, the second half of capture_exception. *)
Definition capture_acts (f : fid) (fr : frame) : list action :=
  match f_kind fr with
  | KRoot => []
  | KCall p _ _ | KFork p _ _ => [Read (LHdr f); Write (LExn p)]
  end.

(** promise.hpp:332-361 final_awaitable; for a call, the parent is resumed. *)
Definition finish_acts (seen : bool) (f : fid) (fr : frame) (s : state) : list action :=
  [Write (LFrame f); Read (LHdr f)] ++
  match f_kind fr with
  | KRoot => [Rmw (OSem f) false true]
  | KFork p _ _ => destroy_acts f fr
  | KCall p _ _ =>
    destroy_acts f fr ++ Read (LHdr p) ::
    match s_frames s !! p with
    | Some frp =>
      match f_rp frp with
      | RCall m st _ => call_resume_acts seen p frp m st
      | _ => []
      end
    | None => []
    end
  end.

(** The running task [f] up to its next await. *)
Definition run_acts (i : wid) (fail : bool) (w : worker) (f : fid) (fr : frame) (t : task)
    (s : state) : list action :=
  match t with
  | Ret v => deliver_acts f fr (OVal v)
  | Throw e => deliver_acts f fr (OExc e)
  | Fork _ _ _ _ =>
    if fail then [Code f; Write (LStk (w_stk w)); Code f]
    else
      (* awaitables.hpp:239-258; promise.hpp:215 set_parent *)
      [Code f; Write (LCell f (length (f_cells fr)))] ++ create_acts (w_stk w) (s_nextf s) ++
      [Write (LHdr (s_nextf s)); Write (LFrame f)] ++ push_acts i ++ [Read (LHdr (s_nextf s))]
  | Call _ _ _ _ =>
    if fail then [Code f; Write (LStk (w_stk w)); Code f]
    else
      (* awaitables.hpp:345-349 *)
      [Code f; Write (LCell f (length (f_cells fr)))] ++ create_acts (w_stk w) (s_nextf s) ++
      [Write (LHdr (s_nextf s)); Write (LFrame f); Read (LHdr (s_nextf s))]
  | Join _ =>
    (* await_ready, awaitables.hpp:426-449 *)
    [Code f; Read (LFrame f)] ++
    if decide (f_steals fr = 0) then join_resume_acts f fr
    else
      Load (OJoin f) true ::
      if decide (f_steals fr = u16max - f_joins fr) then
        take_stack_acts (w_stk w) f fr ++ join_resume_acts f fr
      else []
  | Switch skip d _ =>
    if skip && bool_decide (d = i) then [Code f]
    else [Code f; Write (LFrame f)] ++ submit_acts d f
  | Stash _ _ => Code f :: stash_acts f fr ++ [Code f]
  | Where _ => [Code f]
  end.

(** await_ready that loads an outdated counter (awaitables.hpp:426-449).  The load itself
    synchronises with nothing here; what a later fence gains from it, it also gains from
    the fetch_sub on the same counter that is the worker's next action on an atomic.  Likewise
    the load of the exception flag after a fork or call that does not find it set. *)
Definition stale_acts (f : fid) (fr : frame) (s : state) : list action :=
  match f_rp fr with
  | RFork m st _ pre => fork_resume_acts false f fr m st pre
  | RFinal => finish_acts false f fr s
  | _ => [Code f; Read (LFrame f); Load (OJoin f) false]
  end.

(** awaitables.hpp:455-484 await_suspend of a join.  The coroutine was suspended before. *)
Definition join_suspend_acts (w : worker) (f : fid) (fr : frame) : list action :=
  [Write (LFrame f); Rmw (OJoin f) false true] ++
  if decide (f_steals fr = u16max - f_joins fr) then
    Fence true false :: take_stack_acts (w_stk w) f fr ++ join_resume_acts f fr
  else [].

(** promise.hpp:85-136.  The parent's stacklet is read before the decrement. *)
Definition final_sub_acts (w : worker) (p : fid) (s : state) : list action :=
  match s_frames s !! p with
  | None => []
  | Some frp =>
    [Read (LHdr p); Rmw (OJoin p) false true] ++
    if decide (f_joins frp = 1) then
      Fence true false ::
      (if decide (f_stk frp = w_stk w) then [] else [Write (LStk (w_stk w)); Read (LStk (f_stk frp))]) ++
      [Write (LFrame p); Write (LAt (OJoin p)); Read (LHdr p)] ++ join_resume_acts p frp
    else []
  end.

(** resume.hpp:39-54: one element of the submitted list. *)
Definition submitted_acts (w : worker) (f : fid) (s : state) : list action :=
  [Read (LNode f); Read (LFrame f)] ++
  match s_frames s !! f with
  | None => []
  | Some fr =>
    if decide (f_steals fr = 0) then [Read (LHdr f); Write (LStk (w_stk w)); Read (LStk (f_stk fr))] else []
  end ++ [Read (LHdr f); Write (LFrame f)].

(** The actions of a step of worker [i]. *)
Definition work_acts (i : wid) (fail : bool) (s : state) : list action :=
  match s_workers s !! i with
  | None => []
  | Some w =>
    match w_pc w with
    | PIdle => match w_batch w with [] => [] | f :: _ => submitted_acts w f s end
    | PStolen f => [Write (LFrame f); Read (LHdr f)]                  (* resume.hpp:65-75 *)
    | PRun f =>
      match s_frames s !! f with
      | None => []
      | Some fr =>
        match f_rp fr with
        | RRun t => run_acts i fail w f fr t s
        | RFork m st _ pre => fork_resume_acts true f fr m st pre
        | RSwitched _ _ => [Code f]
        | RCapture _ => capture_acts f fr
        | RFinal => finish_acts true f fr s
        | RSignalled => destroy_acts f fr                             (* promise.hpp:344 *)
        | RCall _ _ _ | RJoin _ => []
        end
      end
    | PFinal p =>                                                     (* promise.hpp:53-60 *)
      pop_acts i (w_deque w) ++ match w_deque w with [] => [] | _ => [Read (LHdr p); Write (LFrame p)] end
    | PSub p => final_sub_acts w p s
    | PLoseRel => [Write (LStk (s_nexts s))]                          (* stack.hpp:265-269 *)
    | PJSusp f => match s_frames s !! f with None => [] | Some fr => join_suspend_acts w f fr end
    | PSwRel b => if b then [Write (LStk (s_nexts s))] else []
    | PSelf =>                                                        (* awaitables.hpp:55-63 *)
      pop_acts i (w_deque w) ++ match w_deque w with [] => [] | q :: _ => [Write (LFrame q); Read (LHdr q)] end
    end
  end.

(** sync_wait.hpp:251-283 schedule: the shared state, the coroutine on a new stack, its
    semaphore, its node, the submission. *)
Definition spawn_acts (d : wid) (s : state) : list action :=
  let f := s_nextf s in
  [Write (LRes f); Write (LAt (OSem f))] ++ create_acts (s_nexts s) f ++
  [Write (LHdr f)] ++ submit_acts d f.

(** Who acts. *)
Definition actor (l : label) (s : state) : thread :=
  match l with
  | LWork i _ | LStale i | LTake i | LSteal i _ => TW i
  | LSpawn _ _ => TX (s_nextf s)
  end.

Definition acts (l : label) (s : state) : list action :=
  match l with
  | LWork i fail => work_acts i fail s
  | LStale i =>
    match s_workers s !! i with
    | Some w => match w_pc w with
      | PRun f => match s_frames s !! f with Some fr => stale_acts f fr s | None => [] end
      | _ => []
      end
    | None => []
    end
  | LTake i => match s_workers s !! i with None => [] | Some w => take_acts i (w_inbox w) end
  | LSteal _ v => steal_acts v
  | LSpawn d _ => spawn_acts d s
  end.

(** Events that mark the beginning of something come before the memory actions of
    their step, the others after them. *)
Definition opening (e : event) : bool :=
  match e with EvSpawn _ _ | EvFork _ _ _ _ | EvCall _ _ _ _ => true | _ => false end.

Definition step_trace (l : label) (s : state) (evs : list event) : trace :=
  (fun a => (actor l s, a)) <$>
    (Note <$> filter (fun e => opening e = true) evs) ++ acts l s ++
    (Note <$> filter (fun e => opening e = false) evs).

(** sync_wait.hpp:191-240: future::get of root [r] by the client: wait for the
    semaphore, then move the result out of the shared state. *)
Definition get_trace (r : fid) : trace :=
  [(TX r, Rmw (OSem r) true false); (TX r, Read (LRes r)); (TX r, Write (LRes r))].

(** Executions with their memory traces, oldest action first: [nw] workers run
    programs that follow the rules of RuntimeSpec.v, under any schedule. *)
Inductive execution (nw : nat) (af : bool) : state -> trace -> Prop :=
| ex_init : execution nw af (init nw) []
| ex_step s tr l s' evs :
    execution nw af s tr -> allowed nw af l -> step l s = Next s' evs ->
    execution nw af s' (tr ++ step_trace l s evs)
| ex_get s tr r :
    execution nw af s tr -> 0 < sem s r ->
    execution nw af s (tr ++ get_trace r).
