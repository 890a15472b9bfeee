(** * Model of the work-stealing deque.

    Code: /repo/include/libfork/core/ext/deque.hpp (atomic_ring_buf 78-144, deque
    330-470).

    The owner and any number of thieves interleave at the level of single
    accesses to shared memory (m_top, m_bottom, m_buf, the slots of the ring
    buffers); accesses to data only the owner writes may be merged with the
    owner's preceding step.

    Simplifications:
    - sequentially consistent memory: the relaxed/acquire/release orderings and
      the fences of the code are not modelled;
    - std::ptrdiff_t is [Z]: indices do not reach 2^63;
    - a ring buffer is a finite map from slots to values; a slot that was never
      written reads as [None] (the code reads a default-initialised atomic);
    - the trace contains an event for the call, the return and the linearization
      point of each operation; the latter is a proof device. *)

From stdpp Require Import prelude gmap list.
From Coq Require Import ZArith.
Local Open Scope Z_scope.

(** The operations of the owner and of thieves, and their results.  [RThrow]: push
    threw because the allocation of a bigger buffer failed (deque.hpp:389). *)
Inductive dop (V : Type) := DPush (v : V) | DPop | DSteal.
Arguments DPush {V}. Arguments DPop {V}. Arguments DSteal {V}.
Inductive dres (V : Type) := RUnit | RSome (v : V) | REmpty | RLost | RThrow.
Arguments RUnit {V}. Arguments RSome {V}. Arguments REmpty {V}. Arguments RLost {V}. Arguments RThrow {V}.

(** Trace events; [None] is the owner, [Some i] a thief. *)
Inductive dev (V : Type) :=
| ECall (w : option nat) (op : dop V)
| ELin (w : option nat) (op : dop V) (r : dres V)
| ERet (w : option nat) (r : dres V).
Arguments ECall {V}. Arguments ELin {V}. Arguments ERet {V}.

Section model.
Context {V : Type}.

(** deque.hpp:78-144: capacity and contents; m_mask is m_cap - 1. *)
Record ring := Ring { r_cap : Z; r_arr : gmap Z V }.

(** deque.hpp:96,103: index & m_mask. *)
Definition slot (r : ring) (i : Z) : Z := Z.land i (r_cap r - 1).
(** deque.hpp:101-104 load. *)
Definition r_load (r : ring) (i : Z) : option V := r_arr r !! slot r i.
(** deque.hpp:94-97 store. *)
Definition r_store (r : ring) (i : Z) (v : V) : ring := Ring (r_cap r) (<[slot r i := v]> (r_arr r)).

(** deque.hpp:114-123 resize(bot, top): the loop from top to bot, [n] iterations. *)
Fixpoint copy (n : nat) (i : Z) (from to_ : ring) : ring :=
  match n with
  | O => to_
  | S n' =>
    copy n' (i + 1) from
      (match r_load from i with Some v => r_store to_ i v | None => to_ end)
  end.
Definition resize (r : ring) (bot top : Z) : ring :=
  copy (Z.to_nat (bot - top)) top r (Ring (2 * r_cap r) ∅).

(** Program counter of the owner, with its local variables. *)
Inductive opc :=
| OIdle
| OPushTop (v : V) (b : Z)             (* line 384 comes next *)
| OPushBuf (v : V) (b t : Z)           (* lines 385-394 *)
| OPushPub (v : V) (b t : Z) (r : ring) (* line 395: publish the new buffer *)
| OPushStore (v : V) (b t : Z)         (* line 400 *)
| OPushBot (v : V) (b : Z)             (* line 403 *)
| OPushRet (r : dres V)
| OPopStore (b : Z)                    (* line 414 *)
| OPopTop (b : Z)                      (* line 418 *)
| OPopCas (b t : Z)                    (* line 424 *)
| OPopRestore (b : Z) (ok : bool)      (* lines 426, 429, 435 *)
| OPopRet (b : Z)                      (* line 433 *)
| OPopNone.                            (* return when_empty() *)

(** Program counter of a thief. *)
Inductive tpc :=
| TIdle
| TTop                                 (* line 441 *)
| TBot (t : Z)                         (* line 443 *)
| TBuf (t : Z)                         (* line 451, m_buf.load *)
| TSlot (t : Z) (b : nat)              (* line 451, ->load(top) *)
| TCas (t : Z) (x : option V)          (* line 455 *)
| TRet (r : dres V).

(** All buffers ever allocated stay in [d_bufs]: replaced ones are kept in
    m_garbage (line 393) until the deque is destroyed.  [d_cur] is m_buf. *)
Record deque := Deque {
  d_top : Z; d_bot : Z; d_bufs : list ring; d_cur : nat;
  d_own : opc; d_thf : nat -> tpc
}.

Definition set_top (x : Z) (s : deque) := Deque x (d_bot s) (d_bufs s) (d_cur s) (d_own s) (d_thf s).
Definition set_bot (x : Z) (s : deque) := Deque (d_top s) x (d_bufs s) (d_cur s) (d_own s) (d_thf s).
Definition set_bufs (l : list ring) (s : deque) := Deque (d_top s) (d_bot s) l (d_cur s) (d_own s) (d_thf s).
Definition set_cur (c : nat) (s : deque) := Deque (d_top s) (d_bot s) (d_bufs s) c (d_own s) (d_thf s).
Definition set_own (p : opc) (s : deque) := Deque (d_top s) (d_bot s) (d_bufs s) (d_cur s) p (d_thf s).
Definition set_thf (i : nat) (p : tpc) (s : deque) :=
  Deque (d_top s) (d_bot s) (d_bufs s) (d_cur s) (d_own s) (fun j => if decide (j = i) then p else d_thf s j).

(** A new state and the events, or undefined behaviour (failed assertion, dead
    buffer, endless loop). *)
Inductive dstep := Next (s : deque) (tr : list (dev V)) | Undef.

(** Access to the current buffer by the owner. *)
Definition with_cur (s : deque) (k : ring -> dstep) : dstep :=
  match d_bufs s !! d_cur s with Some r => k r | None => Undef end.

(** Next step of the owner.  [op]: the operation it starts if idle; [fail]: an
    allocation made by this step fails. *)
Definition owner (op : option V) (fail : bool) (s : deque) : dstep :=
  match d_own s with
  | OIdle =>
    match op with
    | Some v => Next (set_own (OPushTop v (d_bot s)) s) [ECall None (DPush v)]    (* 383 *)
    | None => Next (set_own (OPopStore (d_bot s - 1)) s) [ECall None DPop]        (* 412-413 *)
    end
  | OPushTop v b => Next (set_own (OPushBuf v b (d_top s)) s) []
  | OPushBuf v b t =>
    with_cur s (fun r =>
      if decide (r_cap r < (b - t) + 1) then
        if fail then Next (set_own (OPushRet RThrow) s) [ELin None (DPush v) RThrow]
        else if decide (t <= b) then Next (set_own (OPushPub v b t (resize r b t)) s) [] else Undef
      else Next (set_own (OPushStore v b t) s) [])
  | OPushPub v b t r =>
    Next (set_own (OPushStore v b t) (set_cur (length (d_bufs s)) (set_bufs (d_bufs s ++ [r]) s))) []
  | OPushStore v b t =>
    with_cur s (fun r =>
      if decide (0 <= b) then
        Next (set_own (OPushBot v b) (set_bufs (<[d_cur s := r_store r b v]> (d_bufs s)) s)) []
      else Undef)
  | OPushBot v b => Next (set_own (OPushRet RUnit) (set_bot (b + 1) s)) [ELin None (DPush v) RUnit]
  | OPushRet r => Next (set_own OIdle s) [ERet None r]
  | OPopStore b => Next (set_own (OPopTop b) (set_bot b s)) []
  | OPopTop b =>
    let t := d_top s in
    if decide (t <= b) then
      if decide (t = b) then Next (set_own (OPopCas b t) s) []
      else
        with_cur s (fun r =>
          match r_load r b with
          | Some v => Next (set_own (OPopRet b) s) [ELin None DPop (RSome v)]
          | None => Undef
          end)
    else Next (set_own (OPopRestore b false) s) [ELin None DPop REmpty]
  | OPopCas b t =>
    if decide (d_top s = t) then
      with_cur s (fun r =>
        match r_load r b with
        | Some v => Next (set_own (OPopRestore b true) (set_top (t + 1) s)) [ELin None DPop (RSome v)]
        | None => Undef
        end)
    else Next (set_own (OPopRestore b false) s) [ELin None DPop REmpty]
  | OPopRestore b ok =>
    Next (set_own (if ok then OPopRet b else OPopNone) (set_bot (b + 1) s)) []
  | OPopRet b =>
    with_cur s (fun r =>
      if decide (0 <= b) then
        match r_load r b with Some v => Next (set_own OIdle s) [ERet None (RSome v)] | None => Undef end
      else Undef)
  | OPopNone => Next (set_own OIdle s) [ERet None REmpty]
  end.

(** Next step of thief [i]. *)
Definition thief (i : nat) (s : deque) : dstep :=
  match d_thf s i with
  | TIdle => Next (set_thf i TTop s) [ECall (Some i) DSteal]
  | TTop => Next (set_thf i (TBot (d_top s)) s) []
  | TBot t =>
    if decide (t < d_bot s) then Next (set_thf i (TBuf t) s) []
    else Next (set_thf i (TRet REmpty) s) [ELin (Some i) DSteal REmpty]
  | TBuf t => Next (set_thf i (TSlot t (d_cur s)) s) []
  | TSlot t b =>
    match d_bufs s !! b with
    | Some r => if decide (0 <= t) then Next (set_thf i (TCas t (r_load r t)) s) [] else Undef
    | None => Undef
    end
  | TCas t x =>
    if decide (d_top s = t) then
      match x with
      | Some v => Next (set_thf i (TRet (RSome v)) (set_top (t + 1) s)) [ELin (Some i) DSteal (RSome v)]
      | None => Undef                     (* a successful steal of an indeterminate value *)
      end
    else Next (set_thf i (TRet RLost) s) [ELin (Some i) DSteal RLost]
  | TRet r => Next (set_thf i TIdle s) [ERet (Some i) r]
  end.

(** Scheduling decisions. *)
Inductive dlab := DOwner (op : option V) (fail : bool) | DThief (i : nat).
Definition dstep_of (l : dlab) (s : deque) : dstep :=
  match l with DOwner op fail => owner op fail s | DThief i => thief i s end.

(** deque(cap), lines 350-355. *)
Definition init (cap : Z) : deque := Deque 0 0 [Ring cap ∅] 0 OIdle (fun _ => TIdle).

(** Executions of a deque of initial capacity [2^k]; the trace is newest first. *)
Inductive reach (k : nat) : deque -> list (dev V) -> Prop :=
| reach_init : reach k (init (2 ^ Z.of_nat k)) []
| reach_step s h l s' tr :
    reach k s h -> dstep_of l s = Next s' tr -> reach k s' (rev tr ++ h).

(** ssize (363-367), empty (375-379), as a function of the two loads. *)
Definition ssize (bottom top : Z) : Z := Z.max (bottom - top) 0.
Definition is_empty (bottom top : Z) : bool := bool_decide (bottom <= top).

End model.

Arguments ring : clear implicits.
Arguments deque : clear implicits.
Arguments opc : clear implicits.
Arguments tpc : clear implicits.
Arguments dstep : clear implicits.
Arguments dlab : clear implicits.
