(** * The work-stealing deque on a machine with store buffers.

    Code: /repo/include/libfork/core/ext/deque.hpp:330-470 and
    core/impl/atomics.hpp:58-85 (thread_fence_seq_cst).

    The owner's plain stores (m_bottom, m_buf, the slots of the ring buffers) do not take
    effect at once: they wait in the owner's store buffer and reach memory later.  Thieves
    read memory; they write nothing but m_top, with compare-and-swap, which acts on memory
    directly.  The owner sees its own stores at once.

    Two machines are modelled: one whose store buffer is first-in first-out
    (x86-TSO), and one that may also reorder stores to different locations that have no release
    fence between them (as ARM and POWER may).

    The steps of the owner and of thieves are those of DequeModel.v; the owner acts on its
    view, thieves on memory.

    Simplifications:
    - thieves' loads take effect in program order: lines 441-451 order them by acquire loads, a
      seq_cst fence and an address dependency (consume);
    - a store that reached memory is seen by all thieves (multi-copy atomicity);
    - the capacity and mask of a new ring buffer are visible at once;
    - indices are [Z], a slot never written reads as [None], as in DequeModel.v. *)

From stdpp Require Import prelude gmap list.
From Coq Require Import ZArith.
From Verif Require Import DequeModel.
Local Open Scope Z_scope.

(** Which stores are kept in order, besides those to the same location.
    [p_tso]: all of them (x86).  [p_rel]: those before the store to m_buf of line 395 are kept before it;
    the code uses memory_order_relaxed there, so this is [false] of the code.
    [p_fence]: line 416, the fence of pop, is there (it is).  The release fence of line 402 is
    always there. *)
Record policy := Policy { p_tso : bool; p_rel : bool; p_fence : bool }.

(** The code on x86, the code on a machine that reorders stores, and, for comparison,
    two programs that are not the code: with [m_buf.store(buf, release)] in line 395, and
    without the fence of pop. *)
Definition on_x86 : policy := Policy true false true.
Definition on_weak : policy := Policy false false true.
Definition repaired_on_weak : policy := Policy false true true.
Definition unfenced_on_x86 : policy := Policy true false false.

Section model.
Context {V : Type}.

(** A store: to m_bottom, to m_buf, to index [j] of ring buffer [c]. *)
Inductive write := WBot (z : Z) | WCur (c : nat) | WSlot (c : nat) (j : Z) (v : V).
(** A store in the buffer, and whether all earlier ones must reach memory before it. *)
Notation pending := (write * bool)%type.

(** [x_view]: the deque as the owner sees it, m_top and the program counters; [x_bot], [x_cur],
    [x_bufs]: m_bottom, m_buf and the ring buffers in memory; [x_pend]: the store buffer, oldest first. *)
Record wm := WM { x_view : deque V; x_bot : Z; x_cur : nat; x_bufs : list (ring V); x_pend : list pending }.

(** The stores of the slots [i], ..., [i + n - 1] of the new buffer [c] by resize (114-123). *)
Fixpoint copies (n : nat) (i : Z) (c : nat) (r : ring V) : list write :=
  match n with
  | O => []
  | S n' => (match r_load r i with Some v => [WSlot c i v] | None => [] end) ++ copies n' (i + 1) c r
  end.

(** The stores issued by the next step of the owner. *)
Definition issued (p : policy) (s : deque V) : list pending :=
  match d_own s with
  | OPushPub v b t r =>                                                       (* 118-120, 395 *)
    map (fun w => (w, p_tso p)) (copies (Z.to_nat (b - t)) t (length (d_bufs s)) r)
    ++ [(WCur (length (d_bufs s)), p_tso p || p_rel p)]
  | OPushStore v b t => [(WSlot (d_cur s) b v, p_tso p)]                      (* 400 *)
  | OPushBot v b => [(WBot (b + 1), true)]                                    (* 402-403 *)
  | OPopStore b => [(WBot b, p_tso p)]                                        (* 414 *)
  | OPopRestore b _ => [(WBot (b + 1), p_tso p)]                              (* 426, 429, 435 *)
  | _ => []
  end.

(** Storage allocated by the next step of the owner: a new ring buffer (116). *)
Definition allocated (s : deque V) : list (ring V) :=
  match d_own s with OPushPub _ _ _ r => [Ring (r_cap r) ∅] | _ => [] end.

(** The next step of the owner has to wait until its store buffer is empty: line 416 before line 418,
    and the compare-and-swap of line 424. *)
Definition waits (p : policy) (x : wm) : bool :=
  match d_own (x_view x) with
  | OPopTop _ => p_fence p && negb (bool_decide (length (x_pend x) = O))
  | OPopCas _ _ => negb (bool_decide (length (x_pend x) = O))
  | _ => false
  end.

Inductive wstep := WNext (x : wm) (tr : list (dev V)) | WBlocked | WUndef.

Definition owner_w (p : policy) (op : option V) (fail : bool) (x : wm) : wstep :=
  if waits p x then WBlocked
  else
    match owner op fail (x_view x) with
    | Next s tr =>
      WNext (WM s (x_bot x) (x_cur x) (x_bufs x ++ allocated (x_view x)) (x_pend x ++ issued p (x_view x))) tr
    | Undef => WUndef
    end.

(** Memory as a deque, for thieves. *)
Definition memory (x : wm) : deque V :=
  Deque (d_top (x_view x)) (x_bot x) (x_bufs x) (x_cur x) OIdle (d_thf (x_view x)).

Definition thief_w (i : nat) (x : wm) : wstep :=
  match thief i (memory x) with
  | Next s tr =>
    let v := x_view x in
    WNext (WM (Deque (d_top s) (d_bot v) (d_bufs v) (d_cur v) (d_own v) (d_thf s))
              (x_bot x) (x_cur x) (x_bufs x) (x_pend x)) tr
  | Undef => WUndef
  end.

(** Two stores to the same location. *)
Definition same_loc (bufs : list (ring V)) (w w' : write) : bool :=
  match w, w' with
  | WBot _, WBot _ | WCur _, WCur _ => true
  | WSlot c j _, WSlot c' j' _ =>
    bool_decide (c = c') &&
    match bufs !! c with Some r => bool_decide (slot r j = slot r j') | None => true end
  | _, _ => false
  end.

(** The store behind [l] in the store buffer may reach memory: no earlier store to the same location is
    waiting, and no store up to it waits for an earlier one. *)
Definition may_commit (bufs : list (ring V)) (l : list pending) (w : write) (f : bool) : bool :=
  match l with
  | [] => true
  | _ :: l' => negb f && forallb (fun y => negb (snd y)) l' && forallb (fun y => negb (same_loc bufs (fst y) w)) l
  end.

(** A store takes effect on m_bottom, m_buf and the ring buffers. *)
Notation mem := (Z * nat * list (ring V))%type.
Definition store (w : write) (m : mem) : mem :=
  let '(b, c, bufs) := m in
  match w with
  | WBot z => (z, c, bufs)
  | WCur c' => (b, c', bufs)
  | WSlot c' j v => (b, c, alter (fun r => r_store r j v) c' bufs)
  end.

(** Store number [n] of the buffer reaches memory. *)
Definition commit (n : nat) (x : wm) : wstep :=
  match x_pend x !! n with
  | Some (w, f) =>
    if may_commit (x_bufs x) (take n (x_pend x)) w f then
      let '(b, c, bufs) := store w (x_bot x, x_cur x, x_bufs x) in
      WNext (WM (x_view x) b c bufs (delete n (x_pend x))) []
    else WBlocked
  | None => WBlocked
  end.

Inductive wlab := WOwner (op : option V) (fail : bool) | WThief (i : nat) | WCommit (n : nat).
Definition wstep_of (p : policy) (l : wlab) (x : wm) : wstep :=
  match l with
  | WOwner op fail => owner_w p op fail x
  | WThief i => thief_w i x
  | WCommit n => commit n x
  end.

(** deque(cap), lines 350-355; the constructor's stores are visible to all threads that may use the deque. *)
Definition winit (cap : Z) : wm := WM (init cap) 0 0 [Ring cap ∅] [].

(** Executions; the trace is newest first. *)
Inductive wreach (p : policy) (k : nat) : wm -> list (dev V) -> Prop :=
| wreach_init : wreach p k (winit (2 ^ Z.of_nat k)) []
| wreach_step x h l x' tr :
    wreach p k x h -> wstep_of p l x = WNext x' tr -> wreach p k x' (rev tr ++ h).

End model.

Arguments wm : clear implicits.
Arguments write : clear implicits.
Arguments wstep : clear implicits.
Arguments wlab : clear implicits.
