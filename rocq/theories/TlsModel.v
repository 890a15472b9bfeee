(** * Model of the thread-local state of libfork, of worker_init / finalize and of
    what schedule does on the calling thread.

    Code: /repo/include/libfork/core/ext/tls.hpp (whole file),
    /repo/include/libfork/core/sync_wait.hpp:250-287 (schedule),
    /repo/include/libfork/core/impl/promise.hpp:150-162 (operator new, operator delete,
    ~promise_base), /repo/include/libfork/core/impl/unique_frame.hpp.

    Any number of threads; each has its two flags, its context and its stack.
    The stacks are those of StackModel: the stack object in [tls::thread_stack] of thread
    [t] is the handle [tls t], the stack of a root task that schedule has released is the handle
    [park k].

    Simplifications:
    - schedule is cut into four steps at the places where it runs code of the
      caller (copying the function and the arguments, sch.schedule); between them other threads, and such code
      on the same thread, may run.
    - The context is only alive or not; its deque is DequeModel.
    - The [future_shared_state] is the subject of FutureModel; here only that making it may throw.
    - What worker threads do with stacks between worker_init and finalize is any
      sequence of operations that obeys StackSpec.legal ([TWork]). *)

From stdpp Require Import gmap list numbers.
From Verif Require Import StackModel.
Local Open Scope N_scope.

(** Where a thread is in schedule: not in it; after line 264; after 272, with the address of the
    coroutine frame and the stacklet it recorded; after 275, the old stack being [park k]. *)
Inductive phase := Out | Entered | Built (p fr : N) | Released (p fr : N) (k : nat).

(** tls.hpp:32-60. [t_alive]: the lifetime of the object in thread_context has begun and not ended. *)
Record thr := Thr { t_stack : bool; t_ctx : bool; t_alive : bool; t_phase : phase }.
Definition thr0 : thr := Thr false false false Out.

Record tstate := TState { tw : world; tt : gmap nat thr }.
Definition thread (s : tstate) (t : nat) : thr := default thr0 (tt s !! t).
Definition set_thread (t : nat) (x : thr) (s : tstate) : tstate := TState (tw s) (<[t := x]> (tt s)).
Definition set_world (w : world) (s : tstate) : tstate := TState w (tt s).

Definition tls (t : nat) : nat := (2 * t)%nat.
Definition park (k : nat) : nat := (2 * k + 1)%nat.

(** What happens in lines 266-272: make_shared or copying the function throws; the frame is
    allocated but copying the arguments into it throws; success (unless allocating throws). *)
Inductive build := StateThrows | ArgsThrow | AllWell.

Inductive tact :=
| TInit (t : nat) (ctx_ok : bool) (orc : option N)      (* worker_init *)
| TFinal (t u : nat)                                    (* finalize(pointer to the context of u) called by t *)
| TEnter (t : nat) (orc : option N)                     (* schedule, 252-264 *)
| TBuild (t : nat) (size : N) (orc : option N) (b : build)  (* 266-272 *)
| TRelease (t k : nat) (orc : option N)                 (* 275 *)
| TSubmit (t : nat) (throws : bool)                     (* 278-286 *)
| TWork (o : op).

Inductive tout :=
| OOk                  (* returned, or schedule goes on *)
| OCtx (t : nat)       (* worker_init returned the context of t *)
| OThrow               (* an exception left the function *)
| OTerminate           (* std::terminate *)
| OUB.

(** sync_wait.hpp:261-264, the LF_DEFER that runs when schedule is left. *)
Definition leave (t : nat) (r : tout) (s : tstate) : tstate * tout :=
  match step (tw s) (ODestroy (tls t)) with
  | (w, RUnit) => (set_thread t (Thr false (t_ctx (thread s t)) (t_alive (thread s t)) Out) (set_world w s), r)
  | _ => (s, OUB)
  end.

(** Destroying the coroutine: ~promise_base (promise.hpp:162), then operator delete (157).
    tls::stack() asserts has_stack (tls.hpp:66). *)
Definition destroy_frame (t : nat) (p fr : N) (s : tstate) : option tstate :=
  if t_stack (thread s t) then
    match step (tw s) (OTop (tls t)) with
    | (_, RPtr top) =>
        if decide (top = fr) then
          match step (tw s) (ODealloc (tls t) p) with
          | (w, RUnit) => Some (set_world w s)
          | _ => None
          end
        else None
    | _ => None
    end
  else None.

(** [thread_stack.construct()]: placement new, whatever was there (manual_lifetime.hpp:33-37). *)
Definition construct_stack (t : nat) (orc : option N) (w : world) : world * out :=
  step (World (wheap w) (delete (tls t) (wst w))) (ONew (tls t) orc).

(** [None]: the step is not possible in this state. *)
Definition tstep (s : tstate) (a : tact) : option (tstate * tout) :=
  match a with
  | TInit t ctx_ok orc =>                                                   (* tls.hpp:98-122 *)
      let x := thread s t in
      if t_ctx x && t_stack x then Some (s, OThrow)
      (* constructing full_context allocates its deque in a noexcept constructor (context.hpp:91,130) *)
      else if negb ctx_ok then Some (s, OTerminate)
      else
        match construct_stack t orc (tw s) with
        | (w, RUnit) => Some (set_thread t (Thr true true true (t_phase x)) (set_world w s), OCtx t)
        (* 111-113: the handler destroys the context and goes on *)
        | (w, RThrow) => Some (set_thread t (Thr true true false (t_phase x)) s, OCtx t)
        | _ => Some (s, OUB)
        end
  | TFinal t u =>                                                           (* tls.hpp:136-153 *)
      let x := thread s t in
      if negb (bool_decide (t = u)) then Some (s, OThrow)
      else if negb (t_ctx x) || negb (t_stack x) then Some (s, OThrow)
      else if negb (t_alive x) then Some (s, OUB)
      else
        match step (tw s) (ODestroy (tls t)) with
        | (w, RUnit) => Some (set_thread t (Thr false false false (t_phase x)) (set_world w s), OOk)
        | _ => Some (s, OUB)
        end
  | TEnter t orc =>
      let x := thread s t in
      if t_stack x || t_ctx x then Some (s, OThrow)                         (* 252-254 *)
      else
        match t_phase x with
        | Out =>
            match construct_stack t orc (tw s) with                         (* 257 *)
            | (w, RUnit) => Some (set_thread t (Thr true (t_ctx x) (t_alive x) Entered) (set_world w s), OOk)
            | (w, RThrow) => Some (s, OThrow)
            | _ => Some (s, OUB)
            end
        | _ => None
        end
  | TBuild t size orc b =>
      let x := thread s t in
      match t_phase x with
      | Entered =>
          match b with
          | StateThrows => Some (leave t OThrow s)
          | _ =>
              if negb (t_stack x) then Some (s, OUB) else                   (* tls.hpp:66 *)
              match step (tw s) (OAlloc (tls t) size orc) with              (* promise.hpp:152 *)
              | (w, RPtr p) =>
                  let s1 := set_world w s in
                  match b with
                  | ArgsThrow =>
                      match step w (ODealloc (tls t) p) with
                      | (w2, RUnit) => Some (leave t OThrow (set_world w2 s))
                      | _ => Some (s, OUB)
                      end
                  | _ =>
                      match step w (OTop (tls t)) with                      (* promise.hpp:290 *)
                      | (_, RPtr fr) => Some (set_thread t (Thr (t_stack x) (t_ctx x) (t_alive x) (Built p fr)) s1, OOk)
                      | _ => Some (s, OUB)
                      end
                  end
              | (w, RThrow) => Some (leave t OThrow s)
              | _ => Some (s, OUB)
              end
          end
      | _ => None
      end
  | TRelease t k orc =>
      let x := thread s t in
      match t_phase x with
      | Built p fr =>
          match step (tw s) (ORelease (tls t) (park k) orc) with
          | (w, RPtr _) => Some (set_thread t (Thr (t_stack x) (t_ctx x) (t_alive x) (Released p fr k)) (set_world w s), OOk)
          | (w, RThrow) =>                                                  (* 274: "await will clean up" *)
              match destroy_frame t p fr s with
              | Some s1 => Some (leave t OThrow s1)
              | None => Some (s, OUB)
              end
          | _ => Some (s, OUB)
          end
      | _ => None
      end
  | TSubmit t throws =>
      let x := thread s t in
      match t_phase x with
      | Released p fr k =>
          if throws then                                                    (* 280: "await cleans up" *)
            match destroy_frame t p fr s with
            | Some s1 => Some (leave t OThrow s1)
            | None => Some (s, OUB)
            end
          else Some (leave t OOk s)
      | _ => None
      end
  | TWork o =>
      match step (tw s) o with
      | (w, RUB) => Some (s, OUB)
      | (w, RThrow) => Some (set_world w s, OThrow)
      | (w, _) => Some (set_world w s, OOk)
      end
  end.

Definition tinit : tstate := TState init ∅.

(** One call of schedule, undisturbed: the steps one after the other until one of
    them ends it. *)
Record sched_args := SArgs {
  sa_enter : option N; sa_size : N; sa_alloc : option N; sa_build : build;
  sa_park : nat; sa_release : option N; sa_throws : bool }.
Definition in_schedule (s : tstate) (t : nat) : bool :=
  match t_phase (thread s t) with Out => false | _ => true end.
Fixpoint go_on (s : tstate) (t : nat) (l : list tact) : option (tstate * tout) :=
  match l with
  | [] => None
  | a :: l =>
      match tstep s a with
      | Some (s', r) => if in_schedule s' t then match r with OOk => go_on s' t l | _ => Some (s', r) end else Some (s', r)
      | None => None
      end
  end.
Definition schedule (t : nat) (x : sched_args) (s : tstate) : option (tstate * tout) :=
  go_on s t [TEnter t (sa_enter x); TBuild t (sa_size x) (sa_alloc x) (sa_build x);
             TRelease t (sa_park x) (sa_release x); TSubmit t (sa_throws x)].
