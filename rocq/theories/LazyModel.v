(** * Model of lazy_pool.

    Code: /repo/include/libfork/schedule/lazy_pool.hpp (thief_work_sleep, lazy_work,
    ~lazy_pool).

    Workers, submitting threads and the destructor interleave at single accesses to
    the shared atomic variables.

    Simplifications.
    - Sequentially consistent memory.
    - A submission list is a list with atomic push and pop-all (C22).
    - An event count is an unbounded epoch and a number of waiters; wait compares and
      blocks in one step, as in EventModel (less than 2^32 notifications happen
      during one wait, see C23).
    - try_steal is a nondeterministic choice; resuming a task is one step that may be
      delayed for any time.
    - The start latch (lines 162, 359) has been passed: the pool is constructed.
    - Tasks that schedule jobs (on any worker) are covered by the submitting threads. *)

From stdpp Require Import prelude list.
From Verif Require Import PoolCommon.

(** Program counters of a worker; the argument [k] is the key of the event count. *)
Inductive wpc :=
| WTop                               (* line 199 *)
| WPop1 | WSteal                     (* 204, 208 *)
| WPrep                              (* 228 *)
| WPop2 (k : nat)                    (* 230 *)
| WCancelJob (h : handle)            (* 232 *)
| WStop (k : nat)                    (* 237 *)
| WSub (k : nat)                     (* 262 *)
| WAct (k : nat)                     (* 266 *)
| WCancel                            (* 268 *)
| WWait (k : nat)                    (* 276: about to compare *)
| WBlocked (k : nat)                 (* 276: asleep *)
| WUnreg                             (* 276: unregister *)
(* thief_work_sleep *)
| TSub (h : handle)                  (* 110 *)
| TNote (h : handle) | TWake (h : handle)          (* 111: the two halves of notify_one *)
| TAct (h : handle)                  (* 121 *)
| TDom (h : handle) (d : nat)        (* 123 for domain d *)
| TDomNote (h : handle) (d : nat) | TDomWake (h : handle) (d : nat)  (* 124 *)
| TRun (h : handle)                  (* 129 *)
| TEnd                               (* 132 *)
(* leaving *)
| XCancel | XNote | XWake | XSub     (* 242-244 *)
| XStop | XArrive | XLatch | XDone.  (* 166-167: set stop, arrive, wait for the latch *)

(** A thread that schedules jobs: worker_context::schedule, context.hpp:70-78. *)
Inductive apc :=
| AIdle
| APushed (w : nat)                  (* has pushed to w, next: notify_all (lazy_pool.hpp:154-156) *)
| AWake (d : nat).                   (* second half of notify_all *)

(** The destructor, lines 381-394. *)
Inductive dpc :=
| DIdle                              (* has not been called *)
| DNote (d : nat) | DWake (d : nat)  (* lines 387-389 for domain d *)
| DJoin                              (* lines 391-393 *)
| DDone.

Record st := St {
  thief : nat -> nat;                (* per domain *)
  epoch : nat -> nat;
  waiters : nat -> nat;
  active : nat;
  stop : bool;
  arrived : nat;                     (* latch_stop *)
  q : nat -> list job;               (* submission list of each worker *)
  pc : nat -> wpc;
  ag : nat -> apc;
  dt : dpc
}.

Definition set_thief d v s := St (fset d v (thief s)) (epoch s) (waiters s) (active s) (stop s) (arrived s) (q s) (pc s) (ag s) (dt s).
Definition set_epoch d v s := St (thief s) (fset d v (epoch s)) (waiters s) (active s) (stop s) (arrived s) (q s) (pc s) (ag s) (dt s).
Definition set_waiters d v s := St (thief s) (epoch s) (fset d v (waiters s)) (active s) (stop s) (arrived s) (q s) (pc s) (ag s) (dt s).
Definition set_active v s := St (thief s) (epoch s) (waiters s) v (stop s) (arrived s) (q s) (pc s) (ag s) (dt s).
Definition set_stop v s := St (thief s) (epoch s) (waiters s) (active s) v (arrived s) (q s) (pc s) (ag s) (dt s).
Definition set_arrived v s := St (thief s) (epoch s) (waiters s) (active s) (stop s) v (q s) (pc s) (ag s) (dt s).
Definition set_q w v s := St (thief s) (epoch s) (waiters s) (active s) (stop s) (arrived s) (fset w v (q s)) (pc s) (ag s) (dt s).
Definition set_pcs f s := St (thief s) (epoch s) (waiters s) (active s) (stop s) (arrived s) (q s) f (ag s) (dt s).
Definition set_pc w p s := set_pcs (fset w p (pc s)) s.
Definition set_ag a p s := St (thief s) (epoch s) (waiters s) (active s) (stop s) (arrived s) (q s) (pc s) (fset a p (ag s)) (dt s).
Definition set_dt p s := St (thief s) (epoch s) (waiters s) (active s) (stop s) (arrived s) (q s) (pc s) (ag s) p.

Section Pool.
(** The number of workers, the number of NUMA domains, the domain of each worker. *)
Context (n nd : nat) (dom : nat -> nat).

Definition is_blocked (p : wpc) : bool := match p with WBlocked _ => true | _ => false end.
Definition unblock (p : wpc) : wpc := match p with WBlocked k => WWait k | _ => p end.

(** First half of notify_one / notify_all on domain [d] (event_count.hpp:178-188):
    a new epoch; whether there is somebody to wake. *)
Definition notify (d : nat) (s : st) : st * bool :=
  (set_epoch d (S (epoch s d)) s, negb (bool_decide (waiters s d = 0))).

(** Second half of notify_all. *)
Definition wake_all (d : nat) (s : st) : st :=
  set_pcs (fun u => if decide (dom u = d) then unblock (pc s u) else pc s u) s.

(** Second half of notify_one: unblocks the blocked thread [t], if there is any. *)
Definition wake_one (d : nat) (t : option nat) (s : st) : option st :=
  match t with
  | Some t =>
    match pc s t with
    | WBlocked k => if decide (t < n /\ dom t = d) then Some (set_pc t (WWait k) s) else None
    | _ => None
    end
  | None =>
    if existsb (fun u => is_blocked (pc s u) && bool_decide (dom u = d)) (seq 0 n) then None else Some s
  end.

(** cancel_wait, or the unregistration at the end of wait, with its assertion. *)
Definition unregister (d : nat) (s : st) : option st :=
  match waiters s d with
  | O => None
  | S c => Some (set_waiters d c s)
  end.

(** thief.fetch_sub(1); wrapping below zero is undefined here. *)
Definition thief_sub (d : nat) (s : st) : option st :=
  match thief s d with
  | O => None
  | S c => Some (set_thief d c s)
  end.

(** What the environment decides: whether the steal succeeds, and whom notify_one wakes. *)
Record choice := Choice { c_steal : bool; c_target : option nat }.

Definition ret (s : st) : outcome st := Next s [].

(** One step of worker [w]: lazy_work, lines 195-278 and thief_work_sleep, lines 97-133. *)
Definition worker (w : nat) (c : choice) (s : st) : outcome st :=
  let d := dom w in
  match pc s w with
  | WTop => ret (set_pc w WPop1 (set_thief d (S (thief s d)) s))
  | WPop1 =>
    match q s w with
    | [] => ret (set_pc w WSteal s)
    | js => ret (set_pc w (TSub js) (set_q w [] s))
    end
  | WSteal => ret (set_pc w (if c_steal c then TSub [] else WPrep) s)
  | WPrep => ret (set_pc w (WPop2 (epoch s d)) (set_waiters d (S (waiters s d)) s))
  | WPop2 k =>
    match q s w with
    | [] => ret (set_pc w (WStop k) s)
    | js => ret (set_pc w (WCancelJob js) (set_q w [] s))
    end
  | WCancelJob js =>
    match unregister d s with Some s' => ret (set_pc w (TSub js) s') | None => Undef end
  | WStop k => ret (set_pc w (if stop s then XCancel else WSub k) s)
  | WSub k =>
    match thief_sub d s with
    | Some s' => ret (set_pc w (if decide (thief s d = 1) then WAct k else WWait k) s')
    | None => Undef
    end
  | WAct k => ret (set_pc w (if decide (0 < active s) then WCancel else WWait k) s)
  | WCancel => match unregister d s with Some s' => ret (set_pc w WTop s') | None => Undef end
  | WWait k => ret (set_pc w (if decide (epoch s d = k) then WBlocked k else WUnreg) s)
  | WBlocked _ => Blocked
  | WUnreg => match unregister d s with Some s' => ret (set_pc w WTop s') | None => Undef end
  | TSub h =>
    match thief_sub d s with
    | Some s' => ret (set_pc w (if decide (thief s d = 1) then TNote h else TAct h) s')
    | None => Undef
    end
  | TNote h => let '(s', wk) := notify d s in ret (set_pc w (if wk then TWake h else TAct h) s')
  | TWake h => match wake_one d (c_target c) s with Some s' => ret (set_pc w (TAct h) s') | None => Blocked end
  | TAct h => ret (set_pc w (if decide (active s = 0) then TDom h 0 else TRun h) (set_active (S (active s)) s))
  | TDom h i =>
    if decide (i < nd) then ret (set_pc w (if decide (thief s i = 0) then TDomNote h i else TDom h (S i)) s)
    else ret (set_pc w (TRun h) s)
  | TDomNote h i => let '(s', wk) := notify i s in ret (set_pc w (if wk then TDomWake h i else TDom h (S i)) s')
  | TDomWake h i =>
    match wake_one i (c_target c) s with Some s' => ret (set_pc w (TDom h (S i)) s') | None => Blocked end
  | TRun h => Next (set_pc w TEnd s) [EvRun w h]
  | TEnd =>
    match active s with
    | O => Undef
    | S a => ret (set_pc w WTop (set_active a s))
    end
  | XCancel => match unregister d s with Some s' => ret (set_pc w XNote s') | None => Undef end
  | XNote => let '(s', wk) := notify d s in ret (set_pc w (if wk then XWake else XSub) s')
  | XWake => ret (set_pc w XSub (wake_all d s))
  | XSub => match thief_sub d s with Some s' => ret (set_pc w XStop s') | None => Undef end
  | XStop => Next (set_pc w XArrive (set_stop true s)) (if stop s then [] else [EvStop])
  | XArrive => ret (set_pc w XLatch (set_arrived (S (arrived s)) s))
  | XLatch => if decide (arrived s = n) then ret (set_pc w XDone s) else Blocked
  | XDone => Blocked
  end.

(** One step of a submitting thread; [w], [j]: the worker and the job it schedules next
    (lazy_pool.hpp:371 picks a random worker). *)
Definition agent (a w : nat) (j : job) (s : st) : outcome st :=
  match ag s a with
  | AIdle => if decide (w < n) then Next (set_ag a (APushed w) (set_q w (q s w ++ [j]) s)) [EvPush w j] else Blocked
  | APushed w => let '(s', wk) := notify (dom w) s in ret (set_ag a (if wk then AWake (dom w) else AIdle) s')
  | AWake d => ret (set_ag a AIdle (wake_all d s))
  end.

(** One step of the destructor. *)
Definition destructor (s : st) : outcome st :=
  match dt s with
  | DIdle => Next (set_dt (DNote 0) (set_stop true s)) (if stop s then [] else [EvStop])
  | DNote i =>
    if decide (i < nd) then let '(s', wk) := notify i s in ret (set_dt (if wk then DWake i else DNote (S i)) s')
    else ret (set_dt DJoin s)
  | DWake i => ret (set_dt (DNote (S i)) (wake_all i s))
  | DJoin =>
    if forallb (fun u => match pc s u with XDone => true | _ => false end) (seq 0 n) then ret (set_dt DDone s)
    else Blocked
  | DDone => Blocked
  end.

(** A blocked worker may wake up spuriously. *)
Definition spurious (w : nat) (s : st) : outcome st :=
  match pc s w with
  | WBlocked k => ret (set_pc w (WWait k) s)
  | _ => Blocked
  end.

Inductive lab := LWorker (w : nat) (c : choice) | LAgent (a w : nat) (j : job) | LDtor | LSpurious (w : nat).

Definition step (l : lab) (s : st) : outcome st :=
  match l with
  | LWorker w c => if decide (w < n) then worker w c s else Blocked
  | LAgent a w j => agent a w j s
  | LDtor => destructor s
  | LSpurious w => if decide (w < n) then spurious w s else Blocked
  end.

Definition init : st :=
  St (fun _ => 0) (fun _ => 0) (fun _ => 0) 0 false 0 (fun _ => []) (fun _ => WTop) (fun _ => AIdle) DIdle.

(** Executions; the trace is newest first. *)
Inductive reach : st -> list pev -> Prop :=
| reach_init : reach init []
| reach_step s h l s' tr : reach s h -> step l s = Next s' tr -> reach s' (rev tr ++ h).
End Pool.
