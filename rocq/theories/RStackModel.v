(** * The runtime on the real segmented stacks.

    RuntimeModel keeps, for every stack, the list of the coroutine frames on it.  Here every
    step of that machine also runs the stack code that the library runs at that place, on a
    heap of stacklets (StackModel): operator new/delete of a coroutine, the comparisons of a
    frame's stacklet with [tls::stack()->top()], [empty()], [release()] and the adoption
    [*tls::stack() = stack{stacklet}].

    A worker knows only its [m_fib] and a frame only its address and the stacklet recorded
    when it was created; nothing below reads the lists of RuntimeModel's stacks.

    Simplifications:
    - where the code branches on a comparison of stacklets ([ACmp]), the machine is undefined
      unless the comparison comes out as in RuntimeModel;
    - the stack code of one step runs without interruption: it touches only stacklets of
      stacks the thread owns (C54), and malloc's calls are ordered;
    - the size of a frame and malloc's answers are chosen anew at each step. *)

From stdpp Require Import prelude gmap list.
From Coq Require Import NArith.
From Verif Require Import RuntimeModel.
From Verif Require StackModel.
Local Open Scope N_scope.

(** A coroutine frame in memory: its address, the bytes asked for by the compiler and
    [frame::m_stacklet] (frame.hpp:57). *)
Record fmem := Fmem { fm_ptr : N; fm_size : N; fm_top : N }.

(** The heap, [m_fib] of each worker's thread-local stack (tls.hpp:33-60), and the frames. *)
Record mem := Mem { m_heap : gmap N StackModel.slet; m_fib : list N; m_frm : gmap N fmem }.

(** [MNo]: malloc answered differently from what the label says (see [AAlloc]); [MThr]: the
    call throws std::bad_alloc; [MTerm]: std::terminate. *)
Inductive mres := MOk (m : mem) | MNo | MThr (m : mem) | MTerm | MUb.

(** Stack code executed by the runtime. *)
Inductive act :=
| ATop (i : wid) (f : fid)                    (* LF_ASSERT(stacklet() == tls::stack()->top()) *)
| ACmp (i : wid) (f : fid) (b : bool)         (* stacklet() == tls::stack()->top() is b *)
| AEmpty (i : wid)                            (* LF_ASSERT(tls::stack()->empty()) *)
| AAdopt (i : wid) (f : fid)                  (* *tls::stack() = stack{f->stacklet()} *)
| ARelease (i : wid) (o : option N)           (* tls::stack()->release(), noexcept *)
| AAlloc (i : wid) (c : fid) (sz : N) (o : option N)
| AAllocFail (i : wid) (sz : N) (o : option N)
| AAllocUndo (i : wid) (sz : N) (o : option N)
| AFree (i : wid) (f : fid)
| ASched (f : fid) (sz : N) (o1 o2 o3 : option N).

(** [stacklet() == tls::stack()->top()]; [None]: undefined. *)
Definition same_top (i : wid) (f : fid) (m : mem) : option bool :=
  match m_fib m !! i, m_frm m !! f with
  | Some fib, Some fm =>
    match StackModel.stack_top fib (m_heap m) with
    | StackModel.Ret _ t => Some (fm_top fm =? t)
    | _ => None
    end
  | _, _ => None
  end.

(** [*stack = stack{frag}] (stack.hpp:213-216, 225-231, 248-253): the temporary holds the old
    stacklet when it is destroyed. *)
Definition adopt (fib frag : N) : StackModel.M N :=
  StackModel.m_bind (StackModel.stack_from frag) (fun x =>
  StackModel.m_bind (StackModel.stack_dtor fib) (fun _ => StackModel.m_ret x)).

(** operator new (promise.hpp:156), then the promise records top() (promise.hpp:287-290). *)
Definition new_coro (o : option N) (fib sz : N) : StackModel.M (N * fmem) :=
  StackModel.m_bind (StackModel.stack_allocate o fib sz) (fun r =>
  StackModel.m_bind (StackModel.stack_top (fst r)) (fun t =>
  StackModel.m_ret (fst r, Fmem (snd r) sz t))).

(** ~promise_base (promise.hpp:166) and operator delete (promise.hpp:161). *)
Definition del_coro (fib : N) (fm : fmem) : StackModel.M N :=
  StackModel.m_bind (StackModel.stack_top fib) (fun t =>
  StackModel.m_bind (StackModel.m_assert (t =? fm_top fm)) (fun _ =>
  StackModel.stack_deallocate fib (fm_ptr fm))).

(** schedule() (sync_wait.hpp:256-272): the stack of the calling thread is made, the root
    coroutine allocated, the stack released, and the stack made by release() destroyed on
    exit.  If malloc fails, what was made is undone (LF_DEFER, ~quasi_awaitable).
    The make_shared of line 266 and the construction of the arguments are not modelled. *)
Definition sched (sz : N) (o1 o2 o3 : option N) (h : gmap N StackModel.slet)
  : StackModel.outcome (option fmem) :=
  match StackModel.stack_ctor o1 h with
  | StackModel.Ub => StackModel.Ub
  | StackModel.Thr h => StackModel.Ret h None
  | StackModel.Ret h fib =>
    match new_coro o2 fib sz h with
    | StackModel.Ub => StackModel.Ub
    | StackModel.Thr h =>
      StackModel.m_bind (StackModel.stack_dtor fib) (fun _ => StackModel.m_ret None) h
    | StackModel.Ret h (fib, fm) =>
      match StackModel.stack_release o3 fib h with
      | StackModel.Ub => StackModel.Ub
      | StackModel.Thr h =>
        StackModel.m_bind (del_coro fib fm) (fun fib' =>
        StackModel.m_bind (StackModel.stack_dtor fib') (fun _ => StackModel.m_ret None)) h
      | StackModel.Ret h (n, _) =>
        StackModel.m_bind (StackModel.stack_dtor n) (fun _ => StackModel.m_ret (Some fm)) h
      end
    end
  end.

Definition set_fib (i : wid) (x : N) (h : gmap N StackModel.slet) (m : mem) : mem :=
  Mem h (<[i := x]> (m_fib m)) (m_frm m).
Definition set_frm (F : gmap N fmem) (m : mem) : mem := Mem (m_heap m) (m_fib m) F.
Definition set_heap (h : gmap N StackModel.slet) (m : mem) : mem := Mem h (m_fib m) (m_frm m).

Definition exec (a : act) (m : mem) : mres :=
  match a with
  | ATop i f => match same_top i f m with Some true => MOk m | _ => MUb end
  | ACmp i f b =>
    match same_top i f m with Some b' => if Bool.eqb b b' then MOk m else MUb | None => MUb end
  | AEmpty i =>
    match m_fib m !! i with
    | Some fib =>
      match StackModel.stack_empty fib (m_heap m) with
      | StackModel.Ret _ true => MOk m
      | _ => MUb
      end
    | None => MUb
    end
  | AAdopt i f =>
    match m_fib m !! i, m_frm m !! f with
    | Some fib, Some fm =>
      match adopt fib (fm_top fm) (m_heap m) with
      | StackModel.Ret h x => MOk (set_fib i x h m)
      | _ => MUb
      end
    | _, _ => MUb
    end
  | ARelease i o =>
    (* promise.hpp:128-130 and awaitables.hpp:128-130: both are noexcept *)
    match m_fib m !! i with
    | Some fib =>
      match StackModel.stack_release o fib (m_heap m) with
      | StackModel.Ret h (n, _) => MOk (set_fib i n h m)
      | StackModel.Thr _ => MTerm
      | StackModel.Ub => MUb
      end
    | None => MUb
    end
  | AAlloc i c sz o =>
    match m_fib m !! i with
    | Some fib =>
      match new_coro o fib sz (m_heap m) with
      | StackModel.Ret h (fib', fm) => MOk (set_frm (<[c := fm]> (m_frm m)) (set_fib i fib' h m))
      | StackModel.Thr _ => MNo
      | StackModel.Ub => MUb
      end
    | None => MUb
    end
  | AAllocFail i sz o =>
    (* operator new throws *)
    match m_fib m !! i with
    | Some fib =>
      match new_coro o fib sz (m_heap m) with
      | StackModel.Ret _ _ => MNo
      | StackModel.Thr h => MOk (set_heap h m)
      | StackModel.Ub => MUb
      end
    | None => MUb
    end
  | AAllocUndo i sz o =>
    (* the child is created, the deque cannot grow, [stack_child] destroys the child
       (awaitables.hpp:246-257) *)
    match m_fib m !! i with
    | Some fib =>
      match new_coro o fib sz (m_heap m) with
      | StackModel.Ret h (fib', fm) =>
        match del_coro fib' fm h with
        | StackModel.Ret h' fib'' => MOk (set_fib i fib'' h' m)
        | _ => MUb
        end
      | StackModel.Thr _ => MNo
      | StackModel.Ub => MUb
      end
    | None => MUb
    end
  | AFree i f =>
    match m_fib m !! i, m_frm m !! f with
    | Some fib, Some fm =>
      match del_coro fib fm (m_heap m) with
      | StackModel.Ret h fib' => MOk (set_frm (delete f (m_frm m)) (set_fib i fib' h m))
      | _ => MUb
      end
    | _, _ => MUb
    end
  | ASched f sz o1 o2 o3 =>
    match sched sz o1 o2 o3 (m_heap m) with
    | StackModel.Ret h (Some fm) => MOk (set_frm (<[f := fm]> (m_frm m)) (set_heap h m))
    | StackModel.Ret h None => MThr (set_heap h m)
    | _ => MUb
    end
  end.

Fixpoint execs (l : list act) (m : mem) : mres :=
  match l with
  | [] => MOk m
  | a :: r => match exec a m with MOk m' => execs r m' | x => x end
  end.

(** A scheduling decision together with the size of the frame that the step creates, if it
    does, malloc's answers, and, for a fork that fails, whether it is the deque that cannot
    grow. *)
Record rlabel := RL { r_lab : label; r_sz : N; r_o1 : option N; r_o2 : option N; r_o3 : option N; r_push : bool }.

(** take_stack_reset_frame, then await_resume (awaitables.hpp:412-420, 489-497). *)
Definition take_acts (i : wid) (f : fid) : list act := [AEmpty i; AAdopt i f; ATop i f].

(** The stack code of one await of the running coroutine, see [RuntimeModel.run_task]. *)
Definition task_acts (r : rlabel) (i : wid) (fail : bool) (f : fid) (fr : frame) (t : task) (s : state)
  : list act :=
  match t with
  | Fork _ _ _ _ =>
    if fail then (if r_push r then [AAllocUndo i (r_sz r) (r_o1 r)] else [AAllocFail i (r_sz r) (r_o1 r)])
    else [AAlloc i (s_nextf s) (r_sz r) (r_o1 r)]
  | Call _ _ _ _ =>
    if fail then [AAllocFail i (r_sz r) (r_o1 r)] else [AAlloc i (s_nextf s) (r_sz r) (r_o1 r)]
  | Join _ =>
    (* awaitables.hpp:428-447, 494 *)
    if decide (f_steals fr = 0) then [ATop i f]
    else if decide (f_steals fr = u16max - f_joins fr) then take_acts i f
    else []
  | Switch skip d _ =>
    (* awaitables.hpp:113-121 *)
    if skip && bool_decide (d = i) then [] else [ACmp i f (bool_decide (f_steals fr = 0))]
  | _ => []
  end.

(** The stack code of a step of worker [i], see [RuntimeModel.wstep]. *)
Definition work_acts (r : rlabel) (i : wid) (fail : bool) (s : state) : list act :=
  match s_workers s !! i with
  | None => []
  | Some w =>
    match w_pc w with
    | PIdle =>
      (* resume.hpp:43-49 *)
      match w_batch w with
      | [] => []
      | f :: _ =>
        match s_frames s !! f with
        | Some fr => if decide (f_steals fr = 0) then [AEmpty i; AAdopt i f] else [AEmpty i]
        | None => []
        end
      end
    | PStolen _ => [AEmpty i]                                   (* resume.hpp:74 *)
    | PRun f =>
      match s_frames s !! f with
      | None => []
      | Some fr =>
        match f_rp fr with
        | RRun t => task_acts r i fail f fr t s
        | RFinal => match f_kind fr with KRoot => [] | _ => [AFree i f] end  (* promise.hpp:351 *)
        | RSignalled => [AFree i f; AEmpty i]                   (* promise.hpp:340, resume.hpp:55 *)
        | _ => []
        end
      end
    | PFinal _ => []
    | PSub p =>
      match s_frames s !! p with
      | None => []
      | Some frp =>
        if decide (f_joins frp = 1) then
          (* promise.hpp:97-112; awaitables.hpp:494 *)
          if decide (f_stk frp = w_stk w) then [ACmp i p true; ATop i p]
          else [ACmp i p false; AEmpty i; AAdopt i p; ATop i p]
        else
          (* promise.hpp:122-135; resume.hpp:55, 77 *)
          if decide (f_stk frp = w_stk w) then [ACmp i p true] else [ACmp i p false; AEmpty i]
      end
    | PLoseRel => [ARelease i (r_o1 r); AEmpty i]               (* promise.hpp:129; resume.hpp:55, 77 *)
    | PJSusp f =>
      (* awaitables.hpp:461-471 *)
      match s_frames s !! f with
      | None => []
      | Some fr => if decide (f_steals fr = u16max - f_joins fr) then take_acts i f else []
      end
    | PSwRel b => if b then [ARelease i (r_o1 r); AEmpty i] else [AEmpty i]  (* awaitables.hpp:126-136 *)
    | PSelf => match w_deque w with [] => [AEmpty i] | _ => [] end           (* resume.hpp:55, 77 *)
    end
  end.

Definition acts (r : rlabel) (s : state) : list act :=
  match r_lab r with
  | LWork i fail => work_acts r i fail s
  | LStale i =>
    match s_workers s !! i with
    | Some w =>
      match w_pc w with
      | PRun f =>
        match s_frames s !! f with
        | Some fr => match f_rp fr with RFinal => [AFree i f] | _ => [] end
        | None => []
        end
      | _ => []
      end
    | None => []
    end
  | LTake _ | LSteal _ _ => []
  | LSpawn _ _ => [ASched (s_nextf s) (r_sz r) (r_o1 r) (r_o2 r) (r_o3 r)]
  end.

(** One step of both.  A call of schedule() that throws changes nothing but the heap. *)
Inductive rres := RNext (s : state) (m : mem) (tr : list event) | RBlocked | RTerm | RUndef.

Definition rstep (r : rlabel) (s : state) (m : mem) : rres :=
  match step (r_lab r) s with
  | Blocked => RBlocked
  | Undef => RUndef
  | Next s' tr =>
    match execs (acts r s) m with
    | MOk m' => RNext s' m' tr
    | MThr m' => RNext s m' []
    | MNo => RBlocked
    | MTerm => RTerm
    | MUb => RUndef
    end
  end.

(** worker_init of every worker (tls.hpp:98-123), no allocation failing: the answers of
    malloc, one for each worker. *)
Fixpoint boot (os : list (option N)) (m : mem) : option mem :=
  match os with
  | [] => Some m
  | o :: r =>
    match StackModel.stack_ctor o (m_heap m) with
    | StackModel.Ret h x => boot r (Mem h (m_fib m ++ [x]) (m_frm m))
    | _ => None
    end
  end.

(** finalize of every worker (tls.hpp:138-157): the thread-local stacks are destroyed. *)
Fixpoint halt (fibs : list N) : StackModel.M unit :=
  match fibs with
  | [] => StackModel.m_ret tt
  | x :: r => StackModel.m_bind (StackModel.stack_dtor x) (fun _ => halt r)
  end.
