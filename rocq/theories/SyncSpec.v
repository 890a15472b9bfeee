(** * Happens-before and data races, after the C++20 memory model.

    Nothing here mentions workers' internal states, counters or deques.  A trace is
    the list of the memory actions of all threads in the order in which they take
    effect; the position of an action in the list is its name.

    The rules are those of [intro.races] and [atomics.fences] of the C++ standard:
    release and acquire operations and fences, release sequences (a write followed by
    read-modify-writes), happens-before as the transitive closure of program order and
    synchronises-with, and a data race as two conflicting actions, at least one of
    them not atomic, neither of which happens before the other.

    Simplification: an atomic read takes its value from the last write to the object
    before it in the trace.  (The machine interleaves atomic operations; weaker
    interleavings of the deque's own variables are the subject of WeakModel.v.) *)

From stdpp Require Import prelude list relations.
From Coq Require Import NArith.
From Verif Require Import RuntimeModel.

(** A thread: a worker of the pool, or the client that submitted root task [r]. *)
Inductive thread := TW (i : nat) | TX (r : N).

(** Atomic objects. *)
Inductive obj :=
| OTop (i : nat) | OBot (i : nat)   (* m_top, m_bottom of worker i's deque, deque.hpp:336-337 *)
| OInbox (i : nat)                  (* m_head of worker i's submission list, list.hpp:119 *)
| OJoin (f : N)                     (* m_join of task f, frame.hpp:73 *)
| OFlag (f : N)                     (* m_except of task f, frame.hpp:83-86 *)
| OSem (r : N).                     (* the semaphore of root task r, sync_wait.hpp:80 *)

(** Memory locations.  [LAt o] is the storage of an atomic object, which some code
    also accesses without atomicity. *)
Inductive loc :=
| LFrame (f : N)        (* coroutine frame: suspension point, user's variables, m_steal *)
| LHdr (f : N)          (* m_this_coro, m_stacklet, m_parent / m_sem *)
| LNode (f : N)         (* the intrusive node by which the task is submitted *)
| LExn (f : N)          (* m_eptr *)
| LCell (f : N) (j : nat) (* the variable that receives the result of f's j-th child *)
| LRes (r : N)          (* the result in the shared state of root r's future *)
| LStk (x : N)          (* the stacklets of a segmented stack *)
| LAt (o : obj).

(** Memory actions.  The booleans of an atomic operation say if it has acquire
    and release semantics. *)
Inductive action :=
| Read (l : loc) | Write (l : loc)          (* not atomic *)
| Code (f : N)                              (* user code of task f runs; it may read and
                                               write the variables of f *)
| Load (o : obj) (acq : bool)
| Store (o : obj) (rel : bool)
| Rmw (o : obj) (acq rel : bool)
| Fence (acq rel : bool)
| Note (e : event).                         (* an event of the runtime; no memory effect *)

Notation trace := (list (thread * action)).

(** ** Accesses and conflicts *)

(** The location an action touches, if it writes, if it is atomic. *)
Definition access (a : action) : option (loc * bool * bool) :=
  match a with
  | Read l => Some (l, false, false)
  | Write l => Some (l, true, false)
  | Code f => Some (LFrame f, true, false)
  | Load o _ => Some (LAt o, false, true)
  | Store o _ | Rmw o _ _ => Some (LAt o, true, true)
  | Fence _ _ | Note _ => None
  end.

Definition conflict (a b : action) : Prop :=
  exists l wa wb ta tb, access a = Some (l, wa, ta) /\ access b = Some (l, wb, tb) /\
    (wa = true \/ wb = true) /\ (ta = false \/ tb = false).

(** ** Synchronisation *)

Definition writes (o : obj) (a : action) : Prop :=
  match a with
  | Store o' _ | Rmw o' _ _ => o' = o
  | Write l => l = LAt o
  | _ => False
  end.
Definition is_rmw (a : action) : Prop := match a with Rmw _ _ _ => True | _ => False end.
Definition atomic_write (o : obj) (a : action) : Prop :=
  match a with Store o' _ | Rmw o' _ _ => o' = o | _ => False end.
Definition atomic_read (o : obj) (a : action) : Prop :=
  match a with Load o' _ | Rmw o' _ _ => o' = o | _ => False end.
Definition releases (a : action) : Prop :=
  match a with Store _ r | Rmw _ _ r => r = true | _ => False end.
Definition acquires (a : action) : Prop :=
  match a with Load _ q | Rmw _ q _ => q = true | _ => False end.
Definition rel_fence (a : action) : Prop := match a with Fence _ r => r = true | _ => False end.
Definition acq_fence (a : action) : Prop := match a with Fence q _ => q = true | _ => False end.

(** Action [i] of trace [tr] is sequenced before action [j]. *)
Definition po (tr : trace) (i j : nat) : Prop :=
  (i < j)%nat /\ exists t a b, tr !! i = Some (t, a) /\ tr !! j = Some (t, b).

(** [a] makes the write [h] to [o] a release: it is a release operation itself, or
    a release fence before it. *)
Definition rel_side (tr : trace) (o : obj) (a h : nat) : Prop :=
  exists t x, tr !! h = Some (t, x) /\ atomic_write o x /\
    ((a = h /\ releases x) \/ ((a < h)%nat /\ exists y, tr !! a = Some (t, y) /\ rel_fence y)).

(** [k] is in the release sequence headed by [h]: only read-modify-writes in between. *)
Definition rel_seq (tr : trace) (o : obj) (h k : nat) : Prop :=
  (h <= k)%nat /\ (exists t x, tr !! k = Some (t, x) /\ writes o x) /\
  forall j t x, (h < j <= k)%nat -> tr !! j = Some (t, x) -> writes o x -> is_rmw x.

(** The atomic read [j] of [o] takes its value from [k]. *)
Definition reads_from (tr : trace) (o : obj) (k j : nat) : Prop :=
  (k < j)%nat /\ (exists t x, tr !! k = Some (t, x) /\ writes o x) /\
  (exists t x, tr !! j = Some (t, x) /\ atomic_read o x) /\
  forall n t x, (k < n < j)%nat -> tr !! n = Some (t, x) -> ~ writes o x.

(** [b] makes the read [j] an acquire: an acquire operation itself, or an acquire
    fence after it. *)
Definition acq_side (tr : trace) (j b : nat) : Prop :=
  exists t x, tr !! j = Some (t, x) /\
    ((b = j /\ acquires x) \/ ((j < b)%nat /\ exists y, tr !! b = Some (t, y) /\ acq_fence y)).

Definition synchronises (tr : trace) (a b : nat) : Prop :=
  exists o h k j, rel_side tr o a h /\ rel_seq tr o h k /\ reads_from tr o k j /\ acq_side tr j b.

Definition hb (tr : trace) : nat -> nat -> Prop := tc (fun i j => po tr i j \/ synchronises tr i j).

(** ** Data races *)

Definition race (tr : trace) (i j : nat) : Prop :=
  i <> j /\
  (exists t a u b, tr !! i = Some (t, a) /\ tr !! j = Some (u, b) /\ conflict a b) /\
  ~ hb tr i j /\ ~ hb tr j i.

(** ** The tree of tasks *)

(** Task [p] creates task [c] with a fork or a call. *)
Definition creates (p c : N) (a : action) : Prop :=
  (exists st x, a = Note (EvFork p c st x)) \/ (exists st x, a = Note (EvCall p c st x)).
Definition parent (tr : trace) (c p : N) : Prop := exists n t a, tr !! n = Some (t, a) /\ creates p c a.
(** [d] is a child of [p], or a child of a child of [p], ... *)
Definition below (tr : trace) : N -> N -> Prop := tc (parent tr).
