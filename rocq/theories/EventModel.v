(** * Model of the event count.

    Code: /repo/include/libfork/schedule/ext/event_count.hpp (lines 107-241).

    Any number of threads interleave at single accesses to the 64-bit atomic m_val.
    The calls to std::atomic<uint32_t>::wait / notify on its upper half follow
    the C++20 rules: wait compares and blocks in one step; a blocked thread goes on
    only when notified (or spuriously) and then compares again.

    Simplifications: sequentially consistent memory; the upper half of m_val is
    read as its bits 32-63 (the code reinterprets the pointer, lines 150-152). *)

From stdpp Require Import prelude list.
From Coq Require Import NArith.
Local Open Scope N_scope.

(** event_count.hpp:168-172. *)
Definition k_add_waiter : N := 1.
Definition k_sub_waiter : N := 2 ^ 64 - 1.
Definition k_epoch_shift : N := 32.
Definition k_add_epoch : N := N.shiftl 1 k_epoch_shift.
Definition k_waiter_mask : N := k_add_epoch - 1.

(** std::atomic<uint64_t>::fetch_add: the new value. *)
Definition fetch_add (v x : N) : N := (v + x) mod 2 ^ 64.
Definition waiters (v : N) : N := N.land v k_waiter_mask.
Definition epoch (v : N) : N := N.shiftr v k_epoch_shift.

(** Result of evaluating the condition passed to await. *)
Inductive cond := CTrue | CFalse | CThrow (e : nat).

(** What happens after cancel_wait: the user called it, or await returns or rethrows. *)
Inductive after := AUser | AReturn | ARethrow (e : nat).

(** Program counters. *)
Inductive epc :=
| EIdle
| EPrepared (k : N)                  (* the user holds a key *)
| EWaiting (k : N) (aw : bool)       (* in wait(k): line 207 comes next; aw: called by await *)
| EBlocked (k : N) (aw : bool)       (* blocked in line 207 *)
| EUnreg (aw : bool)                 (* line 212 *)
| ECancel (a : after)                (* line 200 *)
| EWake (all : bool)                 (* lines 180, 186 *)
| EAwFirst                           (* line 221 *)
| EAwPrepare                         (* line 229 *)
| EAwCond (k : N).                   (* line 230 *)

Record ecount := ECount { e_val : N; e_pcs : list epc }.

Inductive eev :=
| VPrepare (i : nat)                 (* registers as a waiter *)
| VUnregister (i : nat)              (* wait or cancel_wait unregisters *)
| VNotify (i : nat) (all : bool)     (* notify_one / notify_all takes effect on the epoch *)
| VNotified (i : nat)                (* ... returns *)
| VAwaitCall (i : nat)
| VCond (i : nat) (c : cond)         (* the condition is evaluated *)
| VAwaitRet (i : nat)
| VAwaitThrow (i : nat) (e : nat).

(** What a thread chooses to do. *)
Inductive choice :=
| ChNotify (all : bool) | ChPrepare | ChAwait   (* if idle *)
| ChWait | ChCancelWait                         (* if it holds a key *)
| ChCond (c : cond)                             (* what the condition says *)
| ChTarget (j : nat)                            (* which thread notify_one unblocks *)
| ChGo.

Definition set_pc (i : nat) (p : epc) (s : ecount) : ecount := ECount (e_val s) (<[i := p]> (e_pcs s)).
Definition set_val (v : N) (s : ecount) : ecount := ECount v (e_pcs s).

Definition is_blocked (p : epc) : bool := match p with EBlocked _ _ => true | _ => false end.
(** A blocked thread is unblocked: it compares again. *)
Definition unblock (p : epc) : epc := match p with EBlocked k aw => EWaiting k aw | _ => p end.

Inductive estep := Next (s : ecount) (tr : list eev) | Undef | Blocked.

(** prepare_wait, lines 190-194: register, and the key. *)
Definition prepare_wait (v : N) : N * N := (fetch_add v k_add_waiter, epoch v).
(** The unregistration in cancel_wait (200-202) and wait (212-214), with the
    assertion. *)
Definition unregister (v : N) : option N :=
  if decide (waiters v <> 0) then Some (fetch_add v k_sub_waiter) else None.

(** Next step of thread [i]. *)
Definition thread (i : nat) (c : choice) (s : ecount) : estep :=
  match e_pcs s !! i with
  | None => Blocked
  | Some p =>
    match p, c with
    | EIdle, ChNotify all =>
      (* lines 178-188 *)
      let s' := set_val (fetch_add (e_val s) k_add_epoch) s in
      if decide (waiters (e_val s) <> 0) then Next (set_pc i (EWake all) s') [VNotify i all]
      else Next s' [VNotify i all; VNotified i]
    | EWake true, _ =>
      Next (ECount (e_val s) (<[i := EIdle]> (unblock <$> e_pcs s))) [VNotified i]
    | EWake false, ChTarget j =>
      match e_pcs s !! j with
      | Some (EBlocked k aw) => Next (set_pc i EIdle (set_pc j (EWaiting k aw) s)) [VNotified i]
      | _ => Blocked
      end
    | EWake false, ChGo =>
      (* nobody to unblock *)
      if existsb is_blocked (e_pcs s) then Blocked else Next (set_pc i EIdle s) [VNotified i]
    | EIdle, ChPrepare =>
      let '(v, k) := prepare_wait (e_val s) in
      Next (set_pc i (EPrepared k) (set_val v s)) [VPrepare i]
    | EPrepared k, ChWait => Next (set_pc i (EWaiting k false) s) []
    | EPrepared k, ChCancelWait => Next (set_pc i (ECancel AUser) s) []
    | EWaiting k aw, _ =>
      if decide (epoch (e_val s) = k) then Next (set_pc i (EBlocked k aw) s) []
      else Next (set_pc i (EUnreg aw) s) []
    | EUnreg aw, _ =>
      match unregister (e_val s) with
      | Some v => Next (set_pc i (if aw then EAwPrepare else EIdle) (set_val v s)) [VUnregister i]
      | None => Undef
      end
    | ECancel a, _ =>
      match unregister (e_val s) with
      | Some v =>
        Next (set_pc i EIdle (set_val v s))
             (VUnregister i :: match a with AUser => [] | AReturn => [VAwaitRet i] | ARethrow e => [VAwaitThrow i e] end)
      | None => Undef
      end
    (* await, lines 219-241 *)
    | EIdle, ChAwait => Next (set_pc i EAwFirst s) [VAwaitCall i]
    | EAwFirst, ChCond CTrue => Next (set_pc i EIdle s) [VCond i CTrue; VAwaitRet i]
    | EAwFirst, ChCond CFalse => Next (set_pc i EAwPrepare s) [VCond i CFalse]
    | EAwFirst, ChCond (CThrow e) => Next (set_pc i EIdle s) [VCond i (CThrow e); VAwaitThrow i e]
    | EAwPrepare, _ =>
      let '(v, k) := prepare_wait (e_val s) in
      Next (set_pc i (EAwCond k) (set_val v s)) [VPrepare i]
    | EAwCond k, ChCond CTrue => Next (set_pc i (ECancel AReturn) s) [VCond i CTrue]
    | EAwCond k, ChCond CFalse => Next (set_pc i (EWaiting k true) s) [VCond i CFalse]
    | EAwCond k, ChCond (CThrow e) => Next (set_pc i (ECancel (ARethrow e)) s) [VCond i (CThrow e)]
    | _, _ => Blocked
    end
  end.

(** Labels: a thread takes a step, or a blocked thread is unblocked spuriously. *)
Inductive elab := EThread (i : nat) (c : choice) | ESpurious (i : nat).
Definition estep_of (l : elab) (s : ecount) : estep :=
  match l with
  | EThread i c => thread i c s
  | ESpurious i =>
    match e_pcs s !! i with
    | Some (EBlocked k aw) => Next (set_pc i (EWaiting k aw) s) []
    | _ => Blocked
    end
  end.

(** [n] threads. *)
Definition einit (n : nat) : ecount := ECount 0 (replicate n EIdle).

(** Executions; the trace is newest first. *)
Inductive ereach (n : nat) : ecount -> list eev -> Prop :=
| ereach_init : ereach n (einit n) []
| ereach_step s h l s' tr : ereach n s h -> estep_of l s = Next s' tr -> ereach n s' (rev tr ++ h).
