(** * Model: the memory of lf::deque (core/ext/deque.hpp).

    What the constructor, push, pop, steal and the destructor allocate and free, with allocations that may
    fail.  Blocks are named by numbers; a block that is live is a member of the heap.  The operations are
    atomic here: only the owner allocates and frees, thieves only remove the oldest item, and push decides
    whether to grow when it loads m_top (deque.hpp:384), so it takes effect there (DequeModel.v has the single
    accesses, and shows that old buffers are not freed before the destructor).  Indices are not modelled:
    items are kept as a list, oldest first. *)

From stdpp Require Import prelude gmap list.
From Coq Require Import NArith.

(** The blocks that are live. *)
Notation heap := (gset N).

(** PTRDIFF_MAX: no object is larger, and [std::ptrdiff_t] overflows beyond (64-bit machines). *)
Definition ptrdiff_max : N := 2 ^ 63 - 1.

(** operator new: [o] is the answer of the system, [None] if there is no memory.  Requests above PTRDIFF_MAX
    are refused (as bad_array_new_length or by malloc); an answer that is no fresh block is no answer. *)
Definition alloc (bytes : N) (o : option N) (h : heap) : option (N * heap) :=
  match o with
  | Some a => if decide (a ∈ h \/ (ptrdiff_max < bytes)%N) then None else Some (a, {[a]} ∪ h)
  | None => None
  end.
(** operator delete: undefined if the block is not live. *)
Definition free (a : N) (h : heap) : option heap := if decide (a ∈ h) then Some (h ∖ {[a]}) else None.

(** A ring buffer: the block of the atomic_ring_buf and that of its array (deque.hpp:133-143). *)
Record buf := Buf { b_node : N; b_array : N }.

(** deque.hpp:336-339: m_buf with its capacity; the items between m_top and m_bottom; m_garbage, its storage
    and the number of elements for which it has space. *)
Record dq := DQ { d_cap : N; d_buf : buf; d_items : list N; d_garbage : list buf; d_vec : N; d_space : nat }.

(** The value, a bad_alloc that leaves the call, std::terminate, undefined behaviour. *)
Inductive res (A : Type) := Ret (a : A) (h : heap) | Throw (h : heap) | Terminates | Undefined.
Global Arguments Ret {A} a h.
Global Arguments Throw {A} h.
Global Arguments Terminates {A}.
Global Arguments Undefined {A}.

(** new atomic_ring_buf{cap} (deque.hpp:84-86, 133-143; 353 and 116): the node, then in its constructor the array;
    if the latter throws the new-expression frees the node.  An array element has [esz] bytes. *)
Definition new_buf (esz cap : N) (o1 o2 : option N) (h : heap) : res buf :=
  match alloc 24 o1 h with
  | None => Throw h
  | Some (a, h1) =>
    match alloc (esz * cap) o2 h1 with
    | None => match free a h1 with Some h2 => Throw h2 | None => Undefined end
    | Some (b, h2) => Ret (Buf a b) h2
    end
  end.
(** delete of a buffer: the array (unique_ptr, deque.hpp:139-143), then the node. *)
Definition delete_buf (b : buf) (h : heap) : option heap :=
  match free (b_array b) h with Some h1 => free (b_node b) h1 | None => None end.

(** deque.hpp:85: LF_ASSERT(cap > 0 && has_single_bit(cap)). *)
Definition power_of_two (cap : N) : bool := (negb (cap =? 0) && (2 ^ N.log2 cap =? cap))%N.
(** deque.hpp:267: k_garbage_reserve. *)
Definition reserved : nat := 64.

(** deque(cap) (deque.hpp:349-355): the buffer, then m_garbage.reserve(64).  If the latter throws no destructor
    of a deque runs; m_buf is an atomic pointer, whose destructor frees nothing. *)
Definition ctor (esz cap : N) (o1 o2 o3 : option N) (h : heap) : res dq :=
  if power_of_two cap then
    match new_buf esz cap o1 o2 h with
    | Ret b h1 =>
      match alloc (8 * N.of_nat reserved) o3 h1 with
      | Some (v, h2) => Ret (DQ cap b [] [] v reserved) h2
      | None => Throw h1
      end
    | Throw h1 => Throw h1
    | Terminates => Terminates
    | Undefined => Undefined
    end
  else Undefined.

(** push (deque.hpp:381-404).  If the deque is full: resize(bottom, top) (deque.hpp:114-123), where [2 * m_cap]
    may overflow; then emplace_back, in a noexcept function, which allocates when the vector is full, moves
    the elements and frees the old storage. *)
Definition push (esz v : N) (o1 o2 o3 : option N) (d : dq) (h : heap) : res dq :=
  let d' b cap g vec sp := DQ cap b (d_items d ++ [v]) g vec sp in
  if (d_cap d <? N.of_nat (length (d_items d)) + 1)%N then
    if (ptrdiff_max <? 2 * d_cap d)%N then Undefined else
    match new_buf esz (2 * d_cap d) o1 o2 h with
    | Ret b h1 =>
      if length (d_garbage d) <? d_space d then Ret (d' b (2 * d_cap d)%N (d_garbage d ++ [d_buf d]) (d_vec d) (d_space d)) h1
      else
        match alloc (8 * N.of_nat (2 * d_space d)) o3 h1 with
        | Some (vec, h2) =>
          match free (d_vec d) h2 with
          | Some h3 => Ret (d' b (2 * d_cap d)%N (d_garbage d ++ [d_buf d]) vec (2 * d_space d)) h3
          | None => Undefined
          end
        | None => Terminates
        end
    | Throw h1 => Throw h1
    | Terminates => Terminates
    | Undefined => Undefined
    end
  else Ret (d' (d_buf d) (d_cap d) (d_garbage d) (d_vec d) (d_space d)) h.

(** pop (deque.hpp:406-437) and a successful steal (deque.hpp:439-461): no memory is taken or given back. *)
Definition pop (d : dq) : dq := DQ (d_cap d) (d_buf d) (removelast (d_items d)) (d_garbage d) (d_vec d) (d_space d).
Definition steal (d : dq) : dq := DQ (d_cap d) (d_buf d) (tail (d_items d)) (d_garbage d) (d_vec d) (d_space d).

(** ~deque (deque.hpp:463-466): the buffer; then the member m_garbage: its elements, its storage. *)
Fixpoint delete_all (bs : list buf) (h : heap) : option heap :=
  match bs with [] => Some h | b :: bs => match delete_buf b h with Some h1 => delete_all bs h1 | None => None end end.
Definition dtor (d : dq) (h : heap) : option heap :=
  match delete_buf (d_buf d) h with
  | Some h1 => match delete_all (d_garbage d) h1 with Some h2 => free (d_vec d) h2 | None => None end
  | None => None
  end.
