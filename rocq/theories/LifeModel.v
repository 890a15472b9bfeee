(** * Model of the life of a thread pool: constructor, start, lifetime of the contexts, destructor.

    Code: /repo/include/libfork/schedule/busy_pool.hpp (busy_vars, busy_work, the constructor,
    schedule, contexts, the destructor), lazy_pool.hpp (the same functions), unit_pool.hpp,
    impl/numa_context.hpp (constructor, init_worker_and_bind, finalize_worker, get_underlying,
    schedule, try_pop_all, try_steal), core/ext/context.hpp:70-78 (schedule).

    Simplifications: what the loops of the workers decide is left open (LazyModel and BusyModel
    have it): in its loop a worker may pop, steal from any worker, run something or test the stop
    flag in any order.  All nodes returned by numa_topology::distribute hold a reference to every
    context (C43), so the references to the contexts, and through them to the shared block, are
    counted together.  Every access is one step; accesses that follow one another and concern the
    same objects are kept apart when another thread could end their life in between. *)

From stdpp Require Import prelude list.
From Verif Require Import PoolCommon.

(** How far the constructor or destructor has come. *)
Inductive mp :=
| MCtx (i : nat)    (* busy_pool.hpp:164-167: make_shared of context i *)
| MDist             (* 171: distribute *)
| MThr (i : nat)    (* 176-178: start thread i *)
| MArrive | MWait   (* 182: latch_start.arrive_and_wait *)
| MView (i : nat)   (* 186-188: m_contexts.push_back *)
| MAlive            (* the constructor has returned *)
| MStop             (* 204 *)
| MJoin (i : nat)   (* 206-208 *)
| MFree             (* the members are destroyed *)
| MDone             (* the destructor has returned *)
| MThrown.          (* the constructor has thrown *)

(** Where a worker is (busy_pool.hpp:72-111, lazy_pool.hpp:142-277). *)
Inductive wp :=
| W0                (* there is no thread yet *)
| WInit             (* numa_context.hpp:117: worker_init *)
| WField            (* 117: the assignment to m_context, then 119-151 *)
| WArrive | WWait   (* busy_pool.hpp:84 *)
| WLoop | WRun      (* in the loop; inside resume *)
| WPush (d : nat)   (* a task moves to context d: context.hpp:72 *)
| WNotify (d : nat) (* 75-77 *)
| WSetStop | WArrS | WWaitS  (* busy_pool.hpp:88-89 *)
| WNull             (* numa_context.hpp:157: exchange *)
| WFinal            (* finalize *)
| WDrop             (* the parameter of the thread function is destroyed *)
| WExit.

(** Other threads: clients that call schedule of the pool, and workers of other pools on which a task moves
    to a context of this one. *)
Inductive op := OIdle | OPush (d : nat) | ONotify (d : nat).

(** The worker_context in the thread-local storage of a worker. *)
Inductive cx := CNone | CLive | CDead.

Record st := St {
  mpc : mp;
  wpc : nat -> wp;
  opc : nat -> op;
  ctx : nat -> cx;
  fld : nat -> bool;        (* m_context of the numa_context is not null (unit_pool: m_context) *)
  start : nat;              (* latch_start (unit_pool: m_ready) *)
  stopl : nat;              (* latch_stop *)
  stop : bool;
  refs : nat;               (* who holds the contexts: m_worker and the nodes *)
  todo : nat -> nat;        (* submitted and not yet taken *)
  view : list (option nat)  (* m_contexts; None is a null pointer *)
}.

Inductive outcome := Next (s : st) | Blocked | Undef | Terminate.

Section Pool.
(** The number of workers; [unit]: unit_pool; which of the other threads are clients. *)
Context (n : nat) (unit : bool) (client : nat -> bool).

Definition set_m m s := St m (wpc s) (opc s) (ctx s) (fld s) (start s) (stopl s) (stop s) (refs s) (todo s) (view s).
Definition set_w w p s := St (mpc s) (fset w p (wpc s)) (opc s) (ctx s) (fld s) (start s) (stopl s) (stop s) (refs s) (todo s) (view s).
Definition set_o k p s := St (mpc s) (wpc s) (fset k p (opc s)) (ctx s) (fld s) (start s) (stopl s) (stop s) (refs s) (todo s) (view s).
Definition set_c w c s := St (mpc s) (wpc s) (opc s) (fset w c (ctx s)) (fld s) (start s) (stopl s) (stop s) (refs s) (todo s) (view s).
Definition set_f w b s := St (mpc s) (wpc s) (opc s) (ctx s) (fset w b (fld s)) (start s) (stopl s) (stop s) (refs s) (todo s) (view s).
Definition set_start k s := St (mpc s) (wpc s) (opc s) (ctx s) (fld s) k (stopl s) (stop s) (refs s) (todo s) (view s).
Definition set_stopl k s := St (mpc s) (wpc s) (opc s) (ctx s) (fld s) (start s) k (stop s) (refs s) (todo s) (view s).
Definition set_stop s := St (mpc s) (wpc s) (opc s) (ctx s) (fld s) (start s) (stopl s) true (refs s) (todo s) (view s).
Definition set_refs k s := St (mpc s) (wpc s) (opc s) (ctx s) (fld s) (start s) (stopl s) (stop s) k (todo s) (view s).
Definition set_todo d k s := St (mpc s) (wpc s) (opc s) (ctx s) (fld s) (start s) (stopl s) (stop s) (refs s) (fset d k (todo s)) (view s).
Definition add_view v s := St (mpc s) (wpc s) (opc s) (ctx s) (fld s) (start s) (stopl s) (stop s) (refs s) (todo s) (view s ++ [v]).

(** The constructor has thrown: all members are destroyed (there are no threads). *)
Definition throw s := Next (set_m MThrown (set_refs 0 s)).

(** ** The thread that constructs and destroys the pool
    (busy_pool.hpp:160-189 and 201-209, lazy_pool.hpp:327-366 and 381-394, unit_pool.hpp:64-67 and 77-80).
    [fail]: an allocation or the creation of a thread fails. *)
Definition master (fail : bool) (s : st) : outcome :=
  match mpc s with
  | MCtx i => if decide (i < n) then if fail then throw s else Next (set_m (MCtx (S i)) s) else Next (set_m MDist s)
  | MDist => if fail then throw s else Next (set_m (MThr 0) (set_refs (1 + n) s))
  | MThr i =>
    if decide (i < n) then
      if fail then if unit then throw s else Terminate  (* the lambda is noexcept *)
      else Next (set_m (MThr (S i)) (set_w i WInit s))
    else Next (set_m (if unit then MWait else MArrive) s)
  | MArrive => Next (set_m MWait (set_start (start s - 1) s))
  | MWait => if decide (start s = 0) then Next (set_m (if unit then MAlive else MView 0) s) else Blocked
  | MView i =>
    if decide (i < n) then
      if fail then Terminate                              (* m_threads is destroyed, its threads are joinable *)
      else Next (set_m (MView (S i)) (add_view (if fld s i then Some i else None) s))
    else Next (set_m MAlive s)
  | MAlive => Blocked
  | MStop => Next (set_m (MJoin 0) (set_stop s))
  | MJoin i =>
    if decide (i < n) then match wpc s i with WExit => Next (set_m (MJoin (S i)) s) | _ => Blocked end
    else Next (set_m MFree s)
  | MFree => Next (set_m MDone (set_refs (refs s - 1) s))
  | MDone | MThrown => Blocked
  end.

(** The shared block, the numa_contexts and (for unit_pool) the pool itself are there. *)
Definition held (s : st) : bool :=
  if unit then match mpc s with MDone | MThrown => false | _ => true end
  else match refs s with 0 => false | _ => true end.

(** ** A worker.  [a]: what it does in its loop. *)
Inductive act := APop | ASteal (v : nat) (got : bool) | ATest | AMove (d : nat) | AEnd.

Definition live (d : nat) (s : st) (k : outcome) : outcome := match ctx s d with CLive => k | _ => Undef end.
(** Through the numa_context (numa_context.hpp:167, 174, 192). *)
Definition thru (d : nat) (s : st) (k : outcome) : outcome := if held s && fld s d then live d s k else Undef.

Definition worker (w : nat) (a : act) (fail : bool) (s : st) : outcome :=
  match wpc s w with
  | W0 => Blocked
  | WInit => if fail then Terminate else Next (set_w w WField (set_c w CLive s))
  | WField => if held s then if fail then Terminate else Next (set_w w WArrive (set_f w true s)) else Undef
  | WArrive => if held s then Next (set_w w (if unit then WLoop else WWait) (set_start (start s - 1) s)) else Undef
  | WWait => if held s then if decide (start s = 0) then Next (set_w w WLoop s) else Blocked else Undef
  | WLoop =>
    match a with
    | APop => thru w s (Next (set_w w (match todo s w with 0 => WLoop | _ => WRun end) (set_todo w 0 s)))
    | ASteal v got =>
      if decide (v < n /\ v <> w) then thru v s (Next (set_w w (if got then WRun else WLoop) s)) else Blocked
    | ATest =>
      if held s then Next (set_w w (if stop s then if unit then WFinal else WSetStop else WLoop) s) else Undef
    | _ => Blocked
    end
  | WRun =>
    match a with
    | AMove d => if decide (d < n) then Next (set_w w (WPush d) s) else Blocked
    | AEnd => Next (set_w w WLoop s)
    | _ => Blocked
    end
  | WPush d => live d s (Next (set_w w (WNotify d) (set_todo d (S (todo s d)) s)))
  | WNotify d => live d s (Next (set_w w WRun s))
  | WSetStop => if held s then Next (set_w w WArrS (set_stop s)) else Undef
  | WArrS => if held s then Next (set_w w WWaitS (set_stopl (stopl s - 1) s)) else Undef
  | WWaitS => if held s then if decide (stopl s = 0) then Next (set_w w WNull s) else Blocked else Undef
  | WNull => if held s then Next (set_w w WFinal (set_f w false s)) else Undef
  | WFinal => live w s (Next (set_w w WDrop (set_c w CDead s)))
  | WDrop => Next (set_w w WExit (set_refs (refs s - 1) s))
  | WExit => Blocked
  end.

(** The pool object can be used. *)
Definition usable (s : st) : bool := match mpc s with MAlive | MStop | MJoin _ => true | _ => false end.

(** ** Another thread.  A client goes through the pool (busy_pool.hpp:194, m_worker[d]), a worker of another
    pool has a pointer to the context. *)
Definition other (k d : nat) (s : st) : outcome :=
  match opc s k with
  | OIdle =>
    if client k then if usable s && bool_decide (d < n) then thru d s (Next (set_o k (OPush d) s)) else Undef
    else if decide (d < n) then Next (set_o k (OPush d) s) else Blocked
  | OPush d => live d s (Next (set_o k (ONotify d) (set_todo d (S (todo s d)) s)))
  | ONotify d => live d s (Next (set_o k OIdle s))
  end.

Inductive lab := LMaster (fail : bool) | LWorker (w : nat) (a : act) (fail : bool) | LOther (k d : nat) | LDtor.

Definition step (l : lab) (s : st) : outcome :=
  match l with
  | LMaster f => master f s
  | LWorker w a f => if decide (w < n) then worker w a f s else Blocked
  | LOther k d => other k d s
  | LDtor => match mpc s with MAlive => Next (set_m MStop s) | _ => Blocked end
  end.

(** busy_pool.hpp:128-134, 50-52; unit_pool.hpp:83-88. *)
Definition init : st :=
  St (if unit then MThr 0 else MCtx 0) (fun _ => W0) (fun _ => OIdle) (fun _ => CNone) (fun _ => false)
     (if unit then 1 else n + 1) n false 1 (fun _ => 0) [].
End Pool.
