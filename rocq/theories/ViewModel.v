(** * The work-stealing deque on the memory model of C++.

    Code: /repo/include/libfork/core/ext/deque.hpp:330-470, core/impl/atomics.hpp:58-85
    (thread_fence_seq_cst).

    Memory is the view machine of the literature (the operational form of the C++ model for
    relaxed, release and acquire accesses and fences, without load buffering).  For each
    location all stores ever made are kept, in modification order: the messages.  A view says for each
    location how far a thread has got: the thread may read any message at or after it.  A store made after a
    release fence carries the view its thread had at that fence; an acquire load that reads the
    store joins this view to its own.  A seq_cst fence joins the view of the thread and a
    global view, and sets both to the result.

    So a thread may read outdated values of m_top, m_bottom, m_buf and the slots, different threads
    may see stores to different locations in different orders, and nothing but the orderings in
    the code prevents it.

    Simplifications, all but the last three of which allow more executions than the standard:
    - stores to m_top carry no view, and the seq_cst compare-and-swaps act as relaxed ones;
    - a failed compare-and-swap does not change the view of the thread;
    - slots carry no views (they are loaded with memory_order_relaxed);
    - the owner is the only one who writes m_bottom, m_buf and the slots, so coherence
      makes it read its newest store to each of them, and its view of these locations is the newest message of each;
    - m_top starts with 0 and is only changed by compare-and-swaps from t to t + 1, each of which reads the
      newest message; so the message number t has the value t, and is named by it;
    - that a thief reads from a slot a value stored after its own compare-and-swap, which the acquire load of line 384
      excludes in the standard, is excluded here since a load never reads a later store;
    - indices are [Z], a slot never written reads as [None], as in DequeModel.v;
    - the capacity and mask of a new ring buffer are visible at once. *)

From stdpp Require Import prelude gmap list.
From Coq Require Import ZArith.
From Verif Require Import DequeModel.
Local Open Scope Z_scope.

(** The orderings: [o_buf]: line 395 stores m_buf with memory_order_release, [o_push]: the release fence
    of line 402, [o_pop]: the seq_cst fence of line 416, [o_steal]: the seq_cst fence of line 442,
    [o_acq]: line 443 loads m_bottom with memory_order_acquire. *)
Record orders := Orders { o_buf : bool; o_push : bool; o_pop : bool; o_steal : bool; o_acq : bool }.
(** The code; and the code with memory_order_release in line 395, which is not the code. *)
Definition the_code : orders := Orders false true true true true.
Definition repaired : orders := Orders true true true true true.

(** A view: m_top, m_bottom, m_buf, and slot [p] of ring buffer [c]. *)
Record view := View { v_top : Z; v_bot : nat; v_cur : nat; v_slot : nat -> Z -> nat }.
Definition v_zero : view := View 0 0 0 (fun _ _ => 0%nat).
Definition v_join (v v' : view) : view :=
  View (v_top v `max` v_top v') (v_bot v `max` v_bot v') (v_cur v `max` v_cur v')
       (fun c p => (v_slot v c p `max` v_slot v' c p)%nat).
Definition set_vtop (t : Z) (v : view) : view := View t (v_bot v) (v_cur v) (v_slot v).
Definition set_vbot (m : nat) (v : view) : view := View (v_top v) m (v_cur v) (v_slot v).
Definition set_vcur (c : nat) (v : view) : view := View (v_top v) (v_bot v) c (v_slot v).
Definition set_vslot (c : nat) (p : Z) (m : nat) (v : view) : view :=
  View (v_top v) (v_bot v) (v_cur v) (fun c' p' => if decide (c' = c /\ p' = p) then m else v_slot v c' p').

Section model.
Context {V : Type}.

(** deque.hpp:78-144: a ring buffer, with all values ever stored in each slot, oldest first. *)
Record buf := Buf { b_cap : Z; b_hist : gmap Z (list V) }.
Definition phys (b : buf) (j : Z) : Z := Z.land j (b_cap b - 1).
Definition hist (b : buf) (j : Z) : list V := default [] (b_hist b !! phys b j).
(** Message [m] of the slot of index [j]; message 0 is the slot before any store. *)
Definition msg (b : buf) (j : Z) (m : nat) : option V := match m with O => None | S m' => hist b j !! m' end.
(** The newest values, as a ring of DequeModel.v. *)
Definition newest (b : buf) : ring V := Ring (b_cap b) (omap last (b_hist b)).
(** deque.hpp:94-97 store. *)
Definition b_store (b : buf) (j : Z) (v : V) : buf := Buf (b_cap b) (<[phys b j := hist b j ++ [v]]> (b_hist b)).
(** deque.hpp:114-123 resize. *)
Definition b_resize (b : buf) (bot top : Z) : buf :=
  let r := resize (newest b) bot top in Buf (r_cap r) ((fun v => [v]) <$> r_arr r).

(** The owner, with its local variables: the line that comes next. *)
Inductive opc :=
| OwIdle
| OwPushTop (v : V) (b : Z)              (* 384 *)
| OwPushBuf (v : V) (b t : Z)            (* 385-387 *)
| OwPushGrow (v : V) (b t : Z)           (* 389-395 *)
| OwPushStore (v : V) (b : Z)            (* 400 *)
| OwPushFence (v : V) (b : Z)            (* 402 *)
| OwPushBot (v : V) (b : Z)              (* 403 *)
| OwPushRet (r : dres V)
| OwPopStore (b : Z)                     (* 414 *)
| OwPopFence (b : Z)                     (* 416 *)
| OwPopTop (b : Z)                       (* 418 *)
| OwPopCas (b : Z)                       (* 424 *)
| OwPopRestore (b : Z) (ok : bool)       (* 426, 429, 435 *)
| OwPopRet (b : Z)                       (* 433 *)
| OwPopNone.                             (* 427, 436 *)

Inductive tpc :=
| ThIdle
| ThTop                                  (* 441 *)
| ThFence (t : Z)                        (* 442 *)
| ThBot (t : Z)                          (* 443 *)
| ThBuf (t : Z)                          (* 451, m_buf.load *)
| ThSlot (t : Z) (c : nat)               (* 451, ->load(top) *)
| ThCas (t : Z) (x : option V)           (* 455 *)
| ThRet (r : dres V).

(** [m_top]: the newest message of m_top; [m_bot]: the messages of m_bottom, each with its view;
    [m_bufs]: the ring buffers; message [c] of m_buf is the address of buffer [c], and carries the view
    [m_cur c]; [m_sc]: the global view; [m_otop]: how far the owner has got in m_top;
    [m_rel]: the owner's view at its last release or seq_cst fence; [m_view i]: the view of thief [i]. *)
Record vm := VM {
  m_top : Z; m_bot : list (Z * view); m_bufs : list buf; m_cur : nat -> view;
  m_sc : view; m_otop : Z; m_rel : view; m_own : opc; m_view : nat -> view; m_thf : nat -> tpc }.

(** The owner's view. *)
Definition oview (s : vm) : view :=
  View (m_otop s) (pred (length (m_bot s))) (pred (length (m_bufs s)))
       (fun c p => match m_bufs s !! c with Some b => length (default [] (b_hist b !! p)) | None => 0%nat end).

Definition bot_now (s : vm) : Z := match last (m_bot s) with Some (b, _) => b | None => 0 end.

Definition set_own (p : opc) (s : vm) : vm :=
  VM (m_top s) (m_bot s) (m_bufs s) (m_cur s) (m_sc s) (m_otop s) (m_rel s) p (m_view s) (m_thf s).
Definition set_top (t : Z) (s : vm) : vm :=
  VM t (m_bot s) (m_bufs s) (m_cur s) (m_sc s) (m_otop s) (m_rel s) (m_own s) (m_view s) (m_thf s).
Definition set_otop (t : Z) (s : vm) : vm :=
  VM (m_top s) (m_bot s) (m_bufs s) (m_cur s) (m_sc s) t (m_rel s) (m_own s) (m_view s) (m_thf s).
Definition set_bufs (l : list buf) (s : vm) : vm :=
  VM (m_top s) (m_bot s) l (m_cur s) (m_sc s) (m_otop s) (m_rel s) (m_own s) (m_view s) (m_thf s).
Definition set_cur (c : nat) (v : view) (s : vm) : vm :=
  VM (m_top s) (m_bot s) (m_bufs s) (fun c' => if decide (c' = c) then v else m_cur s c')
     (m_sc s) (m_otop s) (m_rel s) (m_own s) (m_view s) (m_thf s).
Definition set_sc (v : view) (s : vm) : vm :=
  VM (m_top s) (m_bot s) (m_bufs s) (m_cur s) v (m_otop s) (m_rel s) (m_own s) (m_view s) (m_thf s).
Definition set_rel (v : view) (s : vm) : vm :=
  VM (m_top s) (m_bot s) (m_bufs s) (m_cur s) (m_sc s) (m_otop s) v (m_own s) (m_view s) (m_thf s).
(** A relaxed store to m_bottom by the owner. *)
Definition put_bot (b : Z) (s : vm) : vm :=
  VM (m_top s) (m_bot s ++ [(b, m_rel s)]) (m_bufs s) (m_cur s) (m_sc s) (m_otop s) (m_rel s) (m_own s) (m_view s) (m_thf s).
Definition set_thf (i : nat) (v : view) (p : tpc) (s : vm) : vm :=
  VM (m_top s) (m_bot s) (m_bufs s) (m_cur s) (m_sc s) (m_otop s) (m_rel s) (m_own s)
     (fun j => if decide (j = i) then v else m_view s j) (fun j => if decide (j = i) then p else m_thf s j).

Inductive vstep := VNext (s : vm) (tr : list (dev V)) | VBlocked | VUndef.

Definition with_cur (s : vm) (k : buf -> vstep) : vstep :=
  match last (m_bufs s) with Some b => k b | None => VUndef end.

(** atomics.hpp:58-85 and std::atomic_thread_fence by the owner. *)
Definition owner_sc (s : vm) : vm :=
  let v := v_join (oview s) (m_sc s) in set_rel v (set_sc v (set_otop (v_top v) s)).

(** Next step of the owner.  [op]: the operation it starts if idle; [fail]: an allocation made by this
    step fails; [n]: the message of m_top that it reads. *)
Definition owner (o : orders) (op : option V) (fail : bool) (n : nat) (s : vm) : vstep :=
  match m_own s with
  | OwIdle =>
    match op with
    | Some v => VNext (set_own (OwPushTop v (bot_now s)) s) [ECall None (DPush v)]       (* 383 *)
    | None => VNext (set_own (OwPopStore (bot_now s - 1)) s) [ECall None DPop]           (* 412-413 *)
    end
  | OwPushTop v b =>
    if decide (m_otop s <= Z.of_nat n <= m_top s) then
      VNext (set_own (OwPushBuf v b (Z.of_nat n)) (set_otop (Z.of_nat n) s)) []
    else VBlocked
  | OwPushBuf v b t =>
    with_cur s (fun r =>
      if decide (b_cap r < (b - t) + 1) then
        if fail then VNext (set_own (OwPushRet RThrow) s) [ELin None (DPush v) RThrow]
        else VNext (set_own (OwPushGrow v b t) s) []
      else VNext (set_own (OwPushStore v b) s) [])
  | OwPushGrow v b t =>
    with_cur s (fun r =>
      if decide (t <= b) then
        let s1 := set_bufs (m_bufs s ++ [b_resize r b t]) s in
        VNext (set_own (OwPushStore v b) (set_cur (length (m_bufs s)) (if o_buf o then oview s1 else m_rel s) s1)) []
      else VUndef)
  | OwPushStore v b =>
    with_cur s (fun r =>
      if decide (0 <= b) then
        VNext (set_own (OwPushFence v b) (set_bufs (<[pred (length (m_bufs s)) := b_store r b v]> (m_bufs s)) s)) []
      else VUndef)
  | OwPushFence v b => VNext (set_own (OwPushBot v b) (if o_push o then set_rel (oview s) s else s)) []
  | OwPushBot v b => VNext (set_own (OwPushRet RUnit) (put_bot (b + 1) s)) [ELin None (DPush v) RUnit]
  | OwPushRet r => VNext (set_own OwIdle s) [ERet None r]
  | OwPopStore b => VNext (set_own (OwPopFence b) (put_bot b s)) []
  | OwPopFence b => VNext (set_own (OwPopTop b) (if o_pop o then owner_sc s else s)) []
  | OwPopTop b =>
    let t := Z.of_nat n in
    if decide (m_otop s <= t <= m_top s) then
      let s1 := set_otop t s in
      if decide (t <= b) then
        if decide (t = b) then VNext (set_own (OwPopCas b) s1) []
        else
          with_cur s (fun r =>
            match r_load (newest r) b with
            | Some v => VNext (set_own (OwPopRet b) s1) [ELin None DPop (RSome v)]
            | None => VUndef
            end)
      else VNext (set_own (OwPopRestore b false) s1) [ELin None DPop REmpty]
    else VBlocked
  | OwPopCas b =>
    if decide (m_top s = b) then
      with_cur s (fun r =>
        match r_load (newest r) b with
        | Some v => VNext (set_own (OwPopRestore b true) (set_otop (b + 1) (set_top (b + 1) s))) [ELin None DPop (RSome v)]
        | None => VUndef
        end)
    else VNext (set_own (OwPopRestore b false) s) [ELin None DPop REmpty]
  | OwPopRestore b ok => VNext (set_own (if ok then OwPopRet b else OwPopNone) (put_bot (b + 1) s)) []
  | OwPopRet b =>
    with_cur s (fun r =>
      if decide (0 <= b) then
        match r_load (newest r) b with Some v => VNext (set_own OwIdle s) [ERet None (RSome v)] | None => VUndef end
      else VUndef)
  | OwPopNone => VNext (set_own OwIdle s) [ERet None REmpty]
  end.

(** Next step of thief [i]; [n]: the message it reads. *)
Definition thief (o : orders) (i n : nat) (s : vm) : vstep :=
  let v := m_view s i in
  match m_thf s i with
  | ThIdle => VNext (set_thf i v ThTop s) [ECall (Some i) DSteal]
  | ThTop =>
    let t := Z.of_nat n in
    if decide (v_top v <= t <= m_top s) then VNext (set_thf i (set_vtop t v) (ThFence t) s) [] else VBlocked
  | ThFence t =>
    let v' := v_join v (m_sc s) in
    if o_steal o then VNext (set_thf i v' (ThBot t) (set_sc v' s)) [] else VNext (set_thf i v (ThBot t) s) []
  | ThBot t =>
    match m_bot s !! n with
    | Some (b, w) =>
      if decide (v_bot v <= n)%nat then
        let v' := set_vbot n (if o_acq o then v_join v w else v) in
        if decide (t < b) then VNext (set_thf i v' (ThBuf t) s) []
        else VNext (set_thf i v' (ThRet REmpty) s) [ELin (Some i) DSteal REmpty]
      else VBlocked
    | None => VBlocked
    end
  | ThBuf t =>
    if decide (v_cur v <= n < length (m_bufs s))%nat then VNext (set_thf i (set_vcur n v) (ThSlot t n) s) [] else VBlocked
  | ThSlot t c =>
    (* memory_order_consume: the load through the address is ordered after what the store of the
       address is ordered after *)
    match m_bufs s !! c with
    | Some r =>
      if decide (0 <= t) then
        let p := phys r t in
        if decide (v_slot v c p `max` v_slot (m_cur s c) c p <= n <= length (hist r t))%nat
        then VNext (set_thf i (set_vslot c p n v) (ThCas t (msg r t n)) s) []
        else VBlocked
      else VUndef
    | None => VUndef
    end
  | ThCas t x =>
    if decide (m_top s = t) then
      match x with
      | Some a => VNext (set_thf i (set_vtop (t + 1) v) (ThRet (RSome a)) (set_top (t + 1) s)) [ELin (Some i) DSteal (RSome a)]
      | None => VUndef                     (* a successful steal of an indeterminate value *)
      end
    else VNext (set_thf i v (ThRet RLost) s) [ELin (Some i) DSteal RLost]
  | ThRet r => VNext (set_thf i v ThIdle s) [ERet (Some i) r]
  end.

(** Scheduling decisions, with the message read. *)
Inductive vlab := VOwner (op : option V) (fail : bool) (n : nat) | VThief (i n : nat).
Definition vstep_of (o : orders) (l : vlab) (s : vm) : vstep :=
  match l with VOwner op fail n => owner o op fail n s | VThief i n => thief o i n s end.

(** deque(cap), lines 350-355; the constructor happens before everything else. *)
Definition vinit (cap : Z) : vm :=
  VM 0 [(0, v_zero)] [Buf cap ∅] (fun _ => v_zero) v_zero 0 v_zero OwIdle (fun _ => v_zero) (fun _ => ThIdle).

(** Executions of a deque of initial capacity [2^k]; the trace is newest first. *)
Inductive vreach (o : orders) (k : nat) : vm -> list (dev V) -> Prop :=
| vreach_init : vreach o k (vinit (2 ^ Z.of_nat k)) []
| vreach_step s h l s' tr :
    vreach o k s h -> vstep_of o l s = VNext s' tr -> vreach o k s' (rev tr ++ h).

End model.

Arguments buf : clear implicits.
Arguments opc : clear implicits.
Arguments tpc : clear implicits.
Arguments vm : clear implicits.
Arguments vstep : clear implicits.
Arguments vlab : clear implicits.
