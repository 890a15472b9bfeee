(** * Model of the fork-join runtime of libfork.

    Files modelled (paths relative to /repo/include/libfork/core):
    - impl/frame.hpp       the control block of a task: the 16-bit steal and join
                           counters and the exception slot;
    - impl/awaitables.hpp  what [co_await] does for fork, call, join and context
                           switches;
    - impl/promise.hpp     return, unhandled exception, final suspend;
    - ext/resume.hpp       resuming stolen and submitted tasks;
    - ext/context.hpp      push / pop / schedule of a worker;
    - sync_wait.hpp        submission of a root task and its semaphore.

    The machine is a set of worker threads that interleave at the level of
    single accesses to shared memory: every transition of [wstep] performs at
    most one access to data that another worker may access concurrently, plus
    accesses to data the worker exclusively owns.  Every [LF_ASSERT] on the
    modelled paths is a check whose failure is the distinct result [Undef]; so
    is every access to a task that has been destroyed.

    Simplifications, each justified elsewhere:
    - A worker's deque is an atomic list (deque.hpp is modelled in DequeModel.v;
      FineModel.v runs this machine on those deques and Prop_Fine.v relates the two).
    - A worker's submission list is an atomic list (list.hpp, ListModel.v).
    - A segmented stack is an identity together with the FILO list of the task
      frames that live on it (stack.hpp, StackModel.v).  Comparing two stacklet
      pointers ("is the parent on my stack?") becomes comparing two identities.
    - The C++ body of a task is a tree of awaits (type [task]). *)

From stdpp Require Import prelude gmap list.
From Coq Require Import NArith.
Local Open Scope N_scope.

Notation fid := N (only parsing).
Notation sid := N (only parsing).
Notation wid := nat (only parsing).

(** An exception object.  [EUser n] is thrown by user code; [EBadAlloc] stands
    for whatever an allocation throws (stack.hpp:147, deque.hpp:394);
    [EBeforeJoin] is lf::exception_before_join (exceptions.hpp:45). *)
Inductive exn := EUser (n : N) | EBadAlloc | EBeforeJoin.

(** How a task body ends: [co_return v] or an escaping exception. *)
Inductive outcome := OVal (v : Z) | OExc (e : exn).

(** The variable a child's return address points at.  [CUnset]: never written;
    [CVal v]: assigned by return_value (return.hpp:62-72); [CExc e]: an
    exception was stored by stash_exception(...) (promise.hpp:319-320). *)
Inductive cell := CUnset | CVal (v : Z) | CExc (e : exn).

(** Modifiers of a fork (tag.hpp:52-74). *)
Inductive fmod := FNone | FSync | FSyncOutside.
(** Modifiers of a call (tag.hpp:52-74). *)
Inductive cmod := MNone | MEager | MEagerOutside.

(** What the parent learns when a fork expression returns:
    [FAsync]   nothing (the plain fork, or sync returned false);
    [FDone c]  a sync fork returned true, the parent may look at the child's
               result variable, which holds [c];
    [FExn e]   the fork expression threw [e]. *)
Inductive fres := FAsync | FDone (c : cell) | FExn (e : exn).
(** What the parent learns when a call expression returns: the contents of the
    child's result variable, or an exception thrown by the call expression. *)
Inductive cres := CDone (c : cell) | CExn (e : exn).

(** The body of an async function, as seen by the runtime: a possibly infinite
    tree of awaits.  [st] tells if the return address stores exceptions
    (stash_exception_in_return, exceptions.hpp:34).  The results the parent
    may read after a join are passed to the join's continuation as the list of
    the result variables of all children in the order they were created; each
    child has its own variable (simplification: no two children of one task
    share a result variable). *)
CoInductive task :=
| Ret (v : Z)
| Throw (e : exn)
| Fork (m : fmod) (st : bool) (c : task) (k : fres -> task)
| Call (m : cmod) (st : bool) (c : task) (k : cres -> task)
| Join (k : list cell -> option exn -> task)
(** [co_await] a context switcher that submits the task to worker [d]; [skip]
    is resume_on's await_ready, which does not suspend if already on [d]
    (scheduler.hpp:87). *)
| Switch (skip : bool) (d : wid) (k : task)
(** [self.stash_exception()] in a catch block (first_arg.hpp:175-179). *)
| Stash (e : exn) (k : task)
(** Observe the current worker, [self.context()] (first_arg.hpp:171). *)
| Where (k : wid -> task).

(** just_awaitable (just.hpp:54-96): a call whose return object is a
    try_eventually inside the awaitable; await_resume throws the stored exception
    or returns the value.  [k (OExc e)] is the rest of the body after
    [co_await just[f](...)] threw [e].  If the object was empty the code would
    dereference an empty optional; the model goes on with a dummy value, and the
    theorem about [just] shows that this does not happen. *)
Definition just_k (k : outcome -> task) (r : cres) : task :=
  match r with
  | CDone (CVal v) => k (OVal v)
  | CDone (CExc e) => k (OExc e)
  | CDone CUnset => k (OVal 0%Z)
  | CExn e => k (OExc e)
  end.
Definition just (c : task) (k : outcome -> task) : task := Call MNone true c (just_k k).

(** Where a coroutine continues when it is resumed. *)
Inductive rpoint :=
| RRun (t : task)                       (* executing, or about to execute, t *)
| RFork (m : fmod) (st : bool) (k : fres -> task) (pre : N)
                                        (* suspended in fork_awaitable; [pre] is
                                           sync_fork_awaitable::steals_pre *)
| RCall (m : cmod) (st : bool) (k : cres -> task)
                                        (* suspended in call_awaitable *)
| RJoin (k : list cell -> option exn -> task)
                                        (* suspended in join_awaitable *)
| RSwitched (d : wid) (k : task)        (* suspended in context_switch_awaitable *)
| RCapture (e : exn)                    (* in capture_exception, after the flag
                                           exchange, before the store *)
| RFinal                                (* at final_suspend *)
| RSignalled.                           (* root: semaphore released, not destroyed *)

(** The tag and parent of a task: root, called or forked.  The index is the
    position of its result variable in the parent's list. *)
Inductive kind :=
| KRoot
| KCall (p : fid) (i : nat) (st : bool)
| KFork (p : fid) (i : nat) (st : bool).

(** frame.hpp:33-87.  [f_stk] stands for m_stacklet, [f_rp] for the suspended
    coroutine behind m_this_coro, [f_kind] for m_parent / m_sem together with
    the tag and return address, [f_cells] for the result variables, which live
    in the parent's coroutine frame.  [f_eptr = None] is "m_eptr not alive". *)
Record frame := mkFrame {
  f_kind : kind;
  f_rp : rpoint;
  f_steals : N;
  f_joins : N;
  f_eflag : bool;
  f_eptr : option exn;
  f_cells : list cell;
  f_stk : sid
}.

(** Program counter of a worker. *)
Inductive pc :=
| PIdle                     (* in the scheduler's loop, or between two elements of
                               a batch in resume(submit_handle) *)
| PStolen (f : fid)         (* stole f; resume.hpp:71 comes next *)
| PRun (f : fid)            (* running the coroutine f *)
| PFinal (p : fid)          (* final_await_suspend(p), promise.hpp:53 comes next *)
| PSub (p : fid)            (* final_await_suspend(p), promise.hpp:88-92 comes next *)
| PLoseRel                  (* promise.hpp:130 comes next *)
| PJSusp (f : fid)          (* join_awaitable::await_suspend, awaitables.hpp:461 *)
| PSwRel (b : bool)         (* awaitables.hpp:129 comes next *)
| PSelf.                    (* try_self_stealing, awaitables.hpp:55-63 *)

(** A worker: its program counter, deque (newest first), submission list, the
    submissions it has taken but not yet resumed, and its stack (tls::stack). *)
Record worker := mkWorker {
  w_pc : pc;
  w_deque : list fid;
  w_inbox : list fid;
  w_batch : list fid;
  w_stk : sid
}.

(** The whole machine.  [s_res] is the result stored in the shared state of a
    root's future, [s_sem] counts the releases of its semaphore. *)
Record state := mkState {
  s_frames : gmap N frame;
  s_workers : list worker;
  s_stacks : gmap N (list fid);
  s_nextf : fid;
  s_nexts : sid;
  s_res : gmap N outcome;
  s_sem : gmap N N
}.

(** Observable events. *)
Inductive event :=
| EvSpawn (f : fid) (t : task)                       (* a root task is created *)
| EvFork (p c : fid) (st : bool) (t : task)          (* p forked c *)
| EvCall (p c : fid) (st : bool) (t : task)          (* p called c *)
| EvResume (w : wid) (f : fid)                       (* w starts or resumes f *)
| EvEnd (f : fid) (o : outcome)                      (* f's body ended with o *)
| EvDestroy (f : fid)                                (* f's frame is destroyed *)
| EvStash (f : fid) (e : exn)                        (* f stashed e *)
| EvEager (f : fid) (e : exn)                        (* fork/call in f rethrew e *)
| EvJoin (f : fid) (cs : list cell) (r : option exn) (* a join in f completed *)
| EvWait (f : fid)                                   (* f is suspended at a join *)
| EvSwitch (f : fid) (d : wid)                       (* f is suspended, to go on at d *)
| EvSync (f : fid) (c : cell)                        (* a sync fork in f returned true;
                                                        the child's variable holds c *)
| EvSignal (f : fid).                                (* root f's semaphore released *)

(** Result of a transition: a new state and the events emitted; not enabled; or
    undefined behaviour (a failed assertion, an access to a dead object). *)
Inductive res := Next (s : state) (tr : list event) | Blocked | Undef.

(** ** Small updates *)

(** k_u16_max (utility.hpp). *)
Definition u16max : N := 65535.
Definition u16mod : N := 65536.
(** frame.hpp:189 fetch_sub_joins, the value stored; unsigned 16-bit wrap. *)
Definition u16sub (a b : N) : N := (a + u16mod - b) mod u16mod.
(** frame.hpp:201 fetch_add_steal, the value stored; unsigned 16-bit wrap. *)
Definition u16inc (a : N) : N := (a + 1) mod u16mod.

Definition set_rp (r : rpoint) (fr : frame) : frame :=
  mkFrame (f_kind fr) r (f_steals fr) (f_joins fr) (f_eflag fr) (f_eptr fr) (f_cells fr) (f_stk fr).
Definition set_steals (n : N) (fr : frame) : frame :=
  mkFrame (f_kind fr) (f_rp fr) n (f_joins fr) (f_eflag fr) (f_eptr fr) (f_cells fr) (f_stk fr).
Definition set_joins (n : N) (fr : frame) : frame :=
  mkFrame (f_kind fr) (f_rp fr) (f_steals fr) n (f_eflag fr) (f_eptr fr) (f_cells fr) (f_stk fr).
Definition set_exc (b : bool) (e : option exn) (fr : frame) : frame :=
  mkFrame (f_kind fr) (f_rp fr) (f_steals fr) (f_joins fr) b e (f_cells fr) (f_stk fr).
Definition set_cells (cs : list cell) (fr : frame) : frame :=
  mkFrame (f_kind fr) (f_rp fr) (f_steals fr) (f_joins fr) (f_eflag fr) (f_eptr fr) cs (f_stk fr).

(** frame.hpp:206-215 reset. *)
Definition reset (fr : frame) : frame := set_joins u16max (set_steals 0 fr).

Definition set_pc (p : pc) (w : worker) : worker :=
  mkWorker p (w_deque w) (w_inbox w) (w_batch w) (w_stk w).
Definition set_deque (d : list fid) (w : worker) : worker :=
  mkWorker (w_pc w) d (w_inbox w) (w_batch w) (w_stk w).
Definition set_inbox (l : list fid) (w : worker) : worker :=
  mkWorker (w_pc w) (w_deque w) l (w_batch w) (w_stk w).
Definition set_batch (l : list fid) (w : worker) : worker :=
  mkWorker (w_pc w) (w_deque w) (w_inbox w) l (w_stk w).
Definition set_wstk (x : sid) (w : worker) : worker :=
  mkWorker (w_pc w) (w_deque w) (w_inbox w) (w_batch w) x.

Definition put_frame (f : fid) (fr : frame) (s : state) : state :=
  mkState (<[f := fr]> (s_frames s)) (s_workers s) (s_stacks s) (s_nextf s) (s_nexts s) (s_res s) (s_sem s).
Definition del_frame (f : fid) (s : state) : state :=
  mkState (delete f (s_frames s)) (s_workers s) (s_stacks s) (s_nextf s) (s_nexts s) (s_res s) (s_sem s).
Definition put_worker (i : wid) (w : worker) (s : state) : state :=
  mkState (s_frames s) (<[i := w]> (s_workers s)) (s_stacks s) (s_nextf s) (s_nexts s) (s_res s) (s_sem s).
Definition put_stack (x : sid) (l : list fid) (s : state) : state :=
  mkState (s_frames s) (s_workers s) (<[x := l]> (s_stacks s)) (s_nextf s) (s_nexts s) (s_res s) (s_sem s).
Definition put_res (f : fid) (o : outcome) (s : state) : state :=
  mkState (s_frames s) (s_workers s) (s_stacks s) (s_nextf s) (s_nexts s) (<[f := o]> (s_res s)) (s_sem s).
Definition put_sem (f : fid) (n : N) (s : state) : state :=
  mkState (s_frames s) (s_workers s) (s_stacks s) (s_nextf s) (s_nexts s) (s_res s) (<[f := n]> (s_sem s)).
Definition bump_f (s : state) : state :=
  mkState (s_frames s) (s_workers s) (s_stacks s) (s_nextf s + 1) (s_nexts s) (s_res s) (s_sem s).
Definition bump_s (s : state) : state :=
  mkState (s_frames s) (s_workers s) (s_stacks s) (s_nextf s) (s_nexts s + 1) (s_res s) (s_sem s).

(** The frames on a stack, top first. *)
Definition stk (s : state) (x : sid) : list fid := default [] (s_stacks s !! x).

Definition sem (s : state) (f : fid) : N := default 0 (s_sem s !! f).

(** Destinations of a task's result: where the outcome of a child is stored. *)
Definition fres_last (cs : list cell) : cell := default CUnset (last cs).

(** The control returns to resume(...) (resume.hpp:55-56, 76-77): the worker's
    deque and stack must be empty. *)
Definition to_idle (i : wid) (w : worker) (s : state) (tr : list event) : res :=
  match w_deque w, stk s (w_stk w) with
  | [], [] => Next (put_worker i (set_pc PIdle w) s) tr
  | _, _ => Undef
  end.

(** frame.hpp:258-268 unsafe_rethrow_if_exception, 93-112 rethrow: the
    exception to be thrown, if any, and the frame after it.  [None]: the
    assertion on line 96 fails, or m_eptr is not alive. *)
Definition unsafe_rethrow (fr : frame) : option (option exn * frame) :=
  if f_eflag fr then
    match f_eptr fr with
    | Some e => Some (Some e, set_exc false None fr)
    | None => None
    end
  else Some (None, fr).

(** frame.hpp:222-234 capture_exception by the task itself (both halves: no
    other thread reads the exception while the task runs). *)
Definition self_capture (e : exn) (fr : frame) : frame :=
  if f_eflag fr then fr else set_exc true (Some e) fr.

(** Is the stacklet of frame [f] the top stacklet of the worker's stack?
    [None]: the frame is on the worker's stack but not at its top, in which case
    the comparison of stacklet pointers has no meaning for the code. *)
Definition same_stacklet (s : state) (f : fid) (fr : frame) (w : worker) : option bool :=
  if decide (f_stk fr = w_stk w) then
    match stk s (w_stk w) with
    | g :: _ => if decide (g = f) then Some true else None
    | [] => None
    end
  else Some false.

(** join_awaitable::await_resume (awaitables.hpp:489-497) followed by the rest
    of the body. The frame [f] is resumed by worker [i]. *)
Definition join_resume (i : wid) (w : worker) (f : fid) (fr : frame)
    (k : list cell -> option exn -> task) (s : state) (tr : list event) : res :=
  if decide (f_steals fr = 0 /\ f_joins fr = u16max) then
    match same_stacklet s f fr w with
    | Some true =>
      match unsafe_rethrow fr with
      | Some (r, fr') =>
        Next (put_worker i (set_pc (PRun f) w)
               (put_frame f (set_rp (RRun (k (f_cells fr) r)) fr') s))
             (tr ++ [EvJoin f (f_cells fr) r])
      | None => Undef
      end
    | _ => Undef
    end
  else Undef.

(** join_awaitable::take_stack_reset_frame (awaitables.hpp:412-420), then
    await_resume. *)
Definition take_stack_join_resume (i : wid) (w : worker) (f : fid) (fr : frame)
    (k : list cell -> option exn -> task) (s : state) (tr : list event) : res :=
  if decide (f_steals fr = 0) then Undef else
  match stk s (w_stk w) with
  | [] =>
    let w' := set_wstk (f_stk fr) w in
    let fr' := reset fr in
    join_resume i w' f fr' k (put_worker i w' (put_frame f fr' s)) tr
  | _ => Undef
  end.

(** A task frame is destroyed by worker [w]: coroutine_handle::destroy ->
    ~promise_base (promise.hpp:163-168: assertion that the stack top is this
    frame's stacklet) -> operator delete (promise.hpp:158-161: FILO). *)
Definition destroy (w : worker) (f : fid) (fr : frame) (s : state) : option state :=
  if decide (f_stk fr = w_stk w) then
    match stk s (w_stk w) with
    | g :: l => if decide (g = f) then Some (put_stack (w_stk w) l (del_frame f s)) else None
    | [] => None
    end
  else None.

(** call_awaitable / eager_call_awaitable::await_resume (awaitables.hpp:354-399).
    promise.hpp:217-224: the exception check is generated only if the return
    address stores exceptions.  [seen = false]: atomic_has_exception (frame.hpp:241-250) returns
    an outdated value: false, since only the task itself clears its flag. *)
Definition call_resume (seen : bool) (i : wid) (w : worker) (f : fid) (fr : frame) (m : cmod) (st : bool)
    (k : cres -> task) (s : state) (tr : list event) : res :=
  let done r fr' tr' :=
    Next (put_worker i (set_pc (PRun f) w) (put_frame f (set_rp (RRun (k r)) fr') s)) (tr ++ tr') in
  let ok := CDone (fres_last (f_cells fr)) in
  let real :=
    match unsafe_rethrow fr with
    | Some (Some e, fr') => done (CExn e) fr' [EvEager f e]
    | Some (None, fr') => done ok fr' []
    | None => Undef
    end in
  match m, st with
  | MEager, true =>
    if decide (f_steals fr = 0) then real
    else if f_eflag fr && seen then done (CExn EBeforeJoin) fr [] else done ok fr []
  | MEagerOutside, true => if decide (f_steals fr = 0) then real else Undef
  | _, _ => done ok fr []
  end.

(** fork_awaitable / sync_fork_awaitable::await_resume (awaitables.hpp:262-333),
    generated by promise.hpp:231-240.  [seen]: as above. *)
Definition fork_resume (seen : bool) (i : wid) (w : worker) (f : fid) (fr : frame) (m : fmod) (st : bool)
    (k : fres -> task) (pre : N) (s : state) : res :=
  let done r fr' tr' := Next (put_frame f (set_rp (RRun (k r)) fr') s) tr' in
  let ok := FDone (fres_last (f_cells fr)) in
  let real :=
    match unsafe_rethrow fr with
    | Some (Some e, fr') => done (FExn e) fr' [EvEager f e]
    | Some (None, fr') => done ok fr' [EvSync f (fres_last (f_cells fr))]
    | None => Undef
    end in
  match m with
  | FNone => done FAsync fr []
  | _ =>
    if decide (f_steals fr = pre) then
      match m, st with
      | FSyncOutside, true => if decide (f_steals fr = 0) then real else Undef
      | FSync, true =>
        if decide (f_steals fr = 0) then real
        else if f_eflag fr && seen then done (FExn EBeforeJoin) fr [] else done ok fr [EvSync f (fres_last (f_cells fr))]
      | _, _ => done ok fr [EvSync f (fres_last (f_cells fr))]
      end
    else done FAsync fr []
  end.

(** The frame of a new task (frame.hpp:120-131, constructed by promise.hpp:287). *)
Definition new_frame (kd : kind) (t : task) (x : sid) : frame :=
  mkFrame kd (RRun t) 0 u16max false None [] x.

(** Create a child of [f] on the worker's stack and transfer control to it:
    promise.hpp:156 operator new, 287 the constructor, set_parent line 215. *)
Definition spawn_child (w : worker) (kd : kind) (t : task) (s : state) : state :=
  let c := s_nextf s in
  put_frame c (new_frame kd t (w_stk w))
    (put_stack (w_stk w) (c :: stk s (w_stk w)) (bump_f s)).

(** Delivery of the outcome of task [f] at co_return / in unhandled_exception
    (return.hpp:62-75, promise.hpp:318-330).  Continues at final_suspend, or
    between the two halves of capture_exception (frame.hpp:222-234). *)
Definition deliver (f : fid) (fr : frame) (o : outcome) (s : state) : res :=
  let fin := put_frame f (set_rp RFinal fr) in
  match f_kind fr with
  | KRoot => Next (put_res f o (fin s)) [EvEnd f o]
  | KCall p i st | KFork p i st =>
    match s_frames s !! p with
    | None => Undef
    | Some frp =>
      match o, st with
      | OVal v, _ =>
        Next (put_frame p (set_cells (<[i := CVal v]> (f_cells frp)) frp) (fin s)) [EvEnd f o]
      | OExc e, true =>
        Next (put_frame p (set_cells (<[i := CExc e]> (f_cells frp)) frp) (fin s)) [EvEnd f o]
      | OExc e, false =>
        if f_eflag frp then Next (fin s) [EvEnd f o]
        else Next (put_frame p (set_exc true (f_eptr frp) frp)
                    (put_frame f (set_rp (RCapture e) fr) s)) [EvEnd f o]
      end
    end
  end.

(** The second half of capture_exception (frame.hpp:231-233). *)
Definition capture (f : fid) (fr : frame) (e : exn) (s : state) : res :=
  match f_kind fr with
  | KRoot => Undef
  | KCall p _ _ | KFork p _ _ =>
    match s_frames s !! p with
    | None => Undef
    | Some frp =>
      Next (put_frame p (set_exc (f_eflag frp) (Some e) frp) (put_frame f (set_rp RFinal fr) s)) []
    end
  end.

(** final_suspend (promise.hpp:302-313) and final_awaitable (332-361). *)
Definition finish (seen : bool) (i : wid) (w : worker) (f : fid) (fr : frame) (s : state) : res :=
  if decide (f_steals fr = 0 /\ f_joins fr = u16max /\ f_eflag fr = false) then
    match f_kind fr with
    | KRoot =>
      Next (put_sem f (sem s f + 1) (put_frame f (set_rp RSignalled fr) s)) [EvSignal f]
    | KCall p _ _ =>
      match destroy w f fr s with
      | None => Undef
      | Some s' =>
        match s_frames s' !! p with
        | Some frp =>
          match f_rp frp with
          | RCall m st k => call_resume seen i w p frp m st k s' [EvDestroy f; EvResume i p]
          | _ => Undef
          end
        | None => Undef
        end
      end
    | KFork p _ _ =>
      match destroy w f fr s with
      | None => Undef
      | Some s' => Next (put_worker i (set_pc (PFinal p) w) s') [EvDestroy f]
      end
    end
  else Undef.

(** A root after its semaphore was released: promise.hpp:342-347. *)
Definition root_destroy (i : wid) (w : worker) (f : fid) (fr : frame) (s : state) : res :=
  match destroy w f fr s with
  | None => Undef
  | Some s' => to_idle i w s' [EvDestroy f]
  end.

(** Worker [i] executes the running coroutine [f] up to its next await.  [fail]:
    an allocation made by this step fails (operator new, promise.hpp:156, or the
    growth of the deque in push, deque.hpp:392-398). *)
Definition run_task (i : wid) (fail : bool) (w : worker) (f : fid) (fr : frame) (t : task)
    (s : state) : res :=
  match t with
  | Ret v => deliver f fr (OVal v) s
  | Throw e => deliver f fr (OExc e) s
  | Fork m st c k =>
    (* awaitables.hpp:239-261: push the parent, run the child.  If the push
       throws the child is destroyed and the parent continues with the exception *)
    if fail then Next (put_frame f (set_rp (RRun (k (FExn EBadAlloc))) fr) s) []
    else
      let cid := s_nextf s in
      let fr' := set_cells (f_cells fr ++ [CUnset]) (set_rp (RFork m st k (f_steals fr)) fr) in
      Next (put_worker i (set_pc (PRun cid) (set_deque (f :: w_deque w) w))
             (spawn_child w (KFork f (length (f_cells fr)) st) c (put_frame f fr' s)))
           [EvFork f cid st c; EvResume i cid]
  | Call m st c k =>
    (* awaitables.hpp:345-349 *)
    if fail then Next (put_frame f (set_rp (RRun (k (CExn EBadAlloc))) fr) s) []
    else
      let cid := s_nextf s in
      let fr' := set_cells (f_cells fr ++ [CUnset]) (set_rp (RCall m st k) fr) in
      Next (put_worker i (set_pc (PRun cid) w)
             (spawn_child w (KCall f (length (f_cells fr)) st) c (put_frame f fr' s)))
           [EvCall f cid st c; EvResume i cid]
  | Join k =>
    (* await_ready, awaitables.hpp:426-449 *)
    if decide (f_steals fr = 0) then join_resume i w f fr k s []
    else if decide (f_steals fr = u16max - f_joins fr) then take_stack_join_resume i w f fr k s []
    else Next (put_worker i (set_pc (PJSusp f) w) s) []
  | Switch skip d k =>
    if skip && bool_decide (d = i) then Next (put_frame f (set_rp (RRun k) fr) s) []
    else
      (* awaitables.hpp:107-125 *)
      match same_stacklet s f fr w, s_workers s !! d with
      | Some same, Some _ =>
        if decide (same = bool_decide (f_steals fr = 0)) then
          let s1 := put_worker i (set_pc (PSwRel same) w) (put_frame f (set_rp (RSwitched d k) fr) s) in
          match s_workers s1 !! d with
          | Some wd => Next (put_worker d (set_inbox (w_inbox wd ++ [f]) wd) s1) [EvSwitch f d]
          | None => Undef
          end
        else Undef
      | _, _ => Undef
      end
  | Stash e k => Next (put_frame f (set_rp (RRun k) (self_capture e fr)) s) [EvStash f e]
  | Where k => Next (put_frame f (set_rp (RRun (k i)) fr) s) []
  end.

(** join_awaitable::await_suspend (awaitables.hpp:455-484). *)
Definition join_suspend (i : wid) (w : worker) (f : fid) (fr : frame) (s : state) : res :=
  match f_rp fr with
  | RRun (Join k) =>
    let joined := f_joins fr in
    let fr' := set_joins (u16sub joined (u16max - f_steals fr)) fr in
    if decide (f_steals fr = u16max - joined) then take_stack_join_resume i w f fr' k s []
    else Next (put_worker i (set_pc PSelf w) (put_frame f (set_rp (RJoin k) fr') s)) [EvWait f]
  | _ => Undef
  end.

(** final_await_suspend after an unsuccessful pop (promise.hpp:85-136). *)
Definition final_sub (i : wid) (w : worker) (p : fid) (s : state) : res :=
  match s_frames s !! p with
  | None => Undef
  | Some frp =>
    match same_stacklet s p frp w with
    | None => Undef
    | Some same =>
      let j := f_joins frp in
      let frp' := set_joins (u16sub j 1) frp in
      if decide (j = 1) then
        match f_rp frp, (if same then [] else stk s (w_stk w)) with
        | RJoin k, [] =>
          let w' := set_wstk (f_stk frp) w in
          join_resume i w' p (reset frp') k (put_worker i w' (put_frame p (reset frp') s)) [EvResume i p]
        | _, _ => Undef
        end
      else if same then Next (put_worker i (set_pc PLoseRel w) (put_frame p frp' s)) []
      else to_idle i w (put_frame p frp' s) []
    end
  end.

(** try_self_stealing (awaitables.hpp:55-63). *)
Definition self_steal (i : wid) (w : worker) (s : state) : res :=
  match w_deque w with
  | [] => to_idle i w s []
  | q :: d =>
    match s_frames s !! q with
    | None => Undef
    | Some frq =>
      Next (put_worker i (set_pc (PRun q) (set_deque d w))
             (put_frame q (set_steals (u16inc (f_steals frq)) frq) s)) [EvResume i q]
    end
  end.

(** resume(submit_handle), one element of the list (resume.hpp:39-54). *)
Definition resume_submitted (i : wid) (w : worker) (f : fid) (rest : list fid) (s : state) : res :=
  match s_frames s !! f, w_deque w, stk s (w_stk w) with
  | Some fr, [], [] =>
    let w' := set_batch rest (set_pc (PRun f) w) in
    let w'' := if decide (f_steals fr = 0) then set_wstk (f_stk fr) w' else w' in
    Next (put_worker i w'' s) [EvResume i f]
  | _, _, _ => Undef
  end.

(** resume(task_handle) (resume.hpp:65-75). *)
Definition resume_stolen (i : wid) (w : worker) (f : fid) (s : state) : res :=
  match s_frames s !! f, w_deque w, stk s (w_stk w) with
  | Some fr, [], [] =>
    Next (put_worker i (set_pc (PRun f) w) (put_frame f (set_steals (u16inc (f_steals fr)) fr) s))
         [EvResume i f]
  | _, _, _ => Undef
  end.

(** The next step of worker [i]. *)
Definition wstep (i : wid) (fail : bool) (s : state) : res :=
  match s_workers s !! i with
  | None => Blocked
  | Some w =>
    match w_pc w with
    | PIdle =>
      match w_batch w with
      | [] => Blocked
      | f :: rest => resume_submitted i w f rest s
      end
    | PStolen f => resume_stolen i w f s
    | PRun f =>
      match s_frames s !! f with
      | None => Undef
      | Some fr =>
        match f_rp fr with
        | RRun t => run_task i fail w f fr t s
        | RFork m st k pre => fork_resume true i w f fr m st k pre s
        | RSwitched _ k => Next (put_frame f (set_rp (RRun k) fr) s) []
        | RCapture e => capture f fr e s
        | RFinal => finish true i w f fr s
        | RSignalled => root_destroy i w f fr s
        | RCall _ _ _ | RJoin _ => Undef
        end
      end
    | PFinal p =>
      (* promise.hpp:53-60 *)
      match w_deque w with
      | q :: d =>
        if decide (q = p) then
          Next (put_worker i (set_pc (PRun p) (set_deque d w)) s) [EvResume i p]
        else Undef
      | [] => Next (put_worker i (set_pc (PSub p) w) s) []
      end
    | PSub p => final_sub i w p s
    | PLoseRel =>
      let w' := set_wstk (s_nexts s) w in
      to_idle i w' (put_worker i w' (bump_s s)) []
    | PJSusp f =>
      match s_frames s !! f with
      | None => Undef
      | Some fr => join_suspend i w f fr s
      end
    | PSwRel b =>
      (* awaitables.hpp:129-139 *)
      let w' := if b then set_wstk (s_nexts s) w else w in
      let s' := if b then bump_s s else s in
      match stk s' (w_stk w') with
      | [] => Next (put_worker i (set_pc PSelf w') s') []
      | _ => Undef
      end
    | PSelf => self_steal i w s
    end
  end.

(** An idle worker takes its whole submission list (context.hpp try_pop_all,
    list.hpp:102-115). *)
Definition take (i : wid) (s : state) : res :=
  match s_workers s !! i with
  | Some w =>
    match w_pc w, w_batch w, w_inbox w with
    | PIdle, [], f :: l => Next (put_worker i (set_inbox [] (set_batch (f :: l) w)) s) []
    | _, _, _ => Blocked
    end
  | None => Blocked
  end.

(** An idle worker [i] steals the oldest task of worker [v]'s deque
    (context.hpp:try_steal, deque.hpp:440-461). *)
Definition steal (i v : wid) (s : state) : res :=
  match s_workers s !! i, s_workers s !! v with
  | Some w, Some wv =>
    if decide (i = v) then Blocked else
    match w_pc w, w_batch w, last (w_deque wv) with
    | PIdle, [], Some f =>
      Next (put_worker i (set_pc (PStolen f) w)
             (put_worker v (set_deque (removelast (w_deque wv)) wv) s)) []
    | _, _, _ => Blocked
    end
  | _, _ => Blocked
  end.

(** A thread outside the pool submits a root task to worker [d]: schedule()
    (sync_wait.hpp:251-283): the coroutine is allocated at the bottom of a new
    stack, the stack is released, the task is pushed on the worker's list. *)
Definition spawn (d : wid) (t : task) (s : state) : res :=
  match s_workers s !! d with
  | None => Blocked
  | Some wd =>
    let f := s_nextf s in
    let x := s_nexts s in
    Next (put_worker d (set_inbox (w_inbox wd ++ [f]) wd)
           (put_frame f (new_frame KRoot t x) (put_stack x [f] (bump_f (bump_s s)))))
         [EvSpawn f t]
  end.

(** await_ready of a join on a weak memory (awaitables.hpp:426-449): the load of m_join
    may return a value older than the last one.  Every older value of the scope is larger,
    and says that children are missing, so the worker goes on to await_suspend.  Likewise the
    load of the exception flag after a fork or call may miss that it is set. *)
Definition stale (i : wid) (s : state) : res :=
  match s_workers s !! i with
  | Some w =>
    match w_pc w with
    | PRun f =>
      match s_frames s !! f with
      | Some fr =>
        match f_rp fr with
        | RRun (Join _) => if decide (f_steals fr = 0) then Blocked else Next (put_worker i (set_pc (PJSusp f) w) s) []
        | RFork m st k pre => fork_resume false i w f fr m st k pre s
        | RFinal => match f_kind fr with KCall _ _ _ => finish false i w f fr s | _ => Blocked end
        | _ => Blocked
        end
      | None => Blocked
      end
    | _ => Blocked
    end
  | None => Blocked
  end.

(** Scheduling decisions; [LStale i]: worker [i] reads an outdated counter or flag. *)
Inductive label :=
| LWork (i : wid) (fail : bool)
| LStale (i : wid)
| LTake (i : wid)
| LSteal (i v : wid)
| LSpawn (d : wid) (t : task).

Definition step (l : label) (s : state) : res :=
  match l with
  | LWork i fail => wstep i fail s
  | LStale i => stale i s
  | LTake i => take i s
  | LSteal i v => steal i v s
  | LSpawn d t => spawn d t s
  end.

(** The initial state: [n] idle workers with empty queues and fresh stacks. *)
Definition init (n : nat) : state :=
  mkState ∅ (map (fun i => mkWorker PIdle [] [] [] (N.of_nat i)) (seq 0 n)) ∅ 0 (N.of_nat n) ∅ ∅.

(** Run a list of scheduling decisions; the trace is in order of occurrence. *)
Fixpoint run (ls : list label) (s : state) (tr : list event) : res :=
  match ls with
  | [] => Next s tr
  | l :: ls' =>
    match step l s with
    | Next s' tr' => run ls' s' (tr ++ tr')
    | Blocked => Blocked
    | Undef => Undef
    end
  end.
