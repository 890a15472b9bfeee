(** * Model of libfork's segmented stacks.

    Code: /repo/include/libfork/core/impl/stack.hpp (whole file).

    Simplifications (all in one place):
    - [std::size_t]/addresses are [N]; wrap-around is written explicitly with
      [w64].
    - [malloc] is an adversary: it may fail or return any 16-aligned address for
      which the block is disjoint from every live block and ends below
      [addr_limit] = 2^62 (real user-space addresses are below 2^57).  Blocks
      that are not stacklets (other users of the heap) are not represented.
    - Bytes of the blocks other than the five header fields are not modelled.
    - [LF_ASSERT] is a check that ends in the distinct outcome [Ub] (in release
      builds it is [LF_ASSUME], i.e. undefined behaviour, core/macro.hpp:189-193).
    - [LF_LOG] is dropped. *)

From stdpp Require Import gmap list numbers.
Local Open Scope N_scope.

(** [std::size_t] arithmetic on a 64-bit target. *)
Definition two64 : N := 2 ^ 64.
Definition w64 (x : N) : N := x mod two64.

(** [impl::k_new_align] (core/impl/utility.hpp) = __STDCPP_DEFAULT_NEW_ALIGNMENT__. *)
Definition k_new_align : N := 16.
(** [sizeof(stack::stacklet)]: five pointers = 40 bytes, alignas(16) (stack.hpp:90,179-195). *)
Definition sizeof_stacklet : N := 48.
(** stack.hpp:52-53. *)
Definition page_size : N := 4096.
Definition malloc_meta_data_size : N := 48.
(** [LF_FIBRE_INIT_SIZE], stack.hpp:35. *)
Definition init_size : N := 1.
(** Assumption on the platform, see the header comment. *)
Definition addr_limit : N := 2 ^ 62.

(** [x & ~(a - 1)] on 64-bit words, for [a] a power of two (stack.hpp:58,286).
    The bitwise form is used here; StackProofs shows it is rounding down. *)
Definition mask_down (a x : N) : N := N.ldiff x (a - 1).

(** stack.hpp:179-195, the five fields of a stacklet header. *)
Record slet := Slet { lo : N; sp : N; hi : N; prev : option N; nxt : option N }.

(** Live malloc'ed blocks, keyed by their address; the value is the header.
    The block occupies [address, hi). *)
Notation heap := (gmap N slet).

(** Outcome of running a piece of code: normal return, [std::bad_alloc] thrown
    (with the heap at that point), or undefined behaviour. *)
Inductive outcome (A : Type) :=
| Ret (h : heap) (a : A)
| Thr (h : heap)
| Ub.
Arguments Ret {A} h a. Arguments Thr {A} h. Arguments Ub {A}.

Definition M (A : Type) := heap -> outcome A.
Definition m_ret {A} (a : A) : M A := fun h => Ret h a.
Definition m_bind {A B} (m : M A) (k : A -> M B) : M B := fun h =>
  match m h with Ret h' a => k a h' | Thr h' => Thr h' | Ub => Ub end.
Definition m_throw {A} : M A := fun h => Thr h.
(** LF_ASSERT (macro.hpp:189-193). *)
Definition m_assert (b : bool) : M unit := fun h => if b then Ret h tt else Ub.
(** Dereference of a stacklet pointer: undefined if the block is not live. *)
Definition m_get (a : N) : M slet := fun h =>
  match h !! a with Some s => Ret h s | None => Ub end.
Definition m_set (a : N) (s : slet) : M unit := fun h =>
  match h !! a with Some _ => Ret (<[a := s]> h) tt | None => Ub end.
(** A freshly malloc'ed block gets its header written (stack.hpp:159-164). *)
Definition m_init (a : N) (s : slet) : M unit := fun h => Ret (<[a := s]> h) tt.
(** [std::free]: no-op on nullptr, undefined on anything that is not live. *)
Definition m_free (p : option N) : M unit := fun h =>
  match p with
  | None => Ret h tt
  | Some a => match h !! a with Some _ => Ret (delete a h) tt | None => Ub end
  end.

Declare Scope m_scope.
Delimit Scope m_scope with m.
Notation "x <-- m ;; k" := (m_bind m (fun x => k)) (at level 100, m at next level, right associativity) : m_scope.
Notation "m ;;; k" := (m_bind m (fun _ => k)) (at level 100, right associativity) : m_scope.
Local Open Scope m_scope.

(** The blocks [a, a+r) and [b, hi s) do not overlap. *)
Definition disj_block (a r : N) (b : N) (s : slet) : bool := (a + r <=? b) || (hi s <=? a).
(** Contract of malloc: what an address for [r] bytes must satisfy. *)
Definition fits (h : heap) (a r : N) : bool :=
  (0 <? a) && (a mod 16 =? 0) && (a + r <=? addr_limit)
  && forallb (fun bs => disj_block a r bs.1 bs.2) (map_to_list h).
(** [std::malloc(r)], stack.hpp:148; [orc] is the adversary's choice.  A proposal
    violating malloc's contract counts as failure. *)
Definition malloc (orc : option N) (r : N) : M (option N) := fun h =>
  match orc with
  | Some a => if fits h a r then Ret h (Some a) else Ret h None
  | None => Ret h None
  end.

(** stack.hpp:45-66 *)
Definition round_up_min (size : N) : N := w64 (size + malloc_meta_data_size).
Definition round_up_rounded (size : N) : N := mask_down page_size (w64 (round_up_min size + page_size - 1)).
Definition round_up_request (size : N) : N := w64 (round_up_rounded size + two64 - malloc_meta_data_size).
Definition round_up_to_page_size (size : N) : M N :=
  m_assert (round_up_min size <=? round_up_rounded size) ;;;
  m_assert (round_up_rounded size mod page_size =? 0) ;;;
  m_assert (size <=? round_up_request size) ;;;
  m_ret (round_up_request size).

(** stack.hpp:97-100 *)
Definition capacity (s : slet) : N := hi s - lo s.
(** stack.hpp:104-107 *)
Definition unused (s : slet) : M N :=
  m_assert (sp s <=? hi s) ;;; m_ret (hi s - sp s).
Definition m_capacity (s : slet) : M N :=
  m_assert (lo s <=? hi s) ;;; m_ret (capacity s).
(** stack.hpp:111 *)
Definition slet_empty (s : slet) : bool := sp s =? lo s.
(** stack.hpp:115-121 *)
Definition is_top (a : N) : M bool :=
  s <-- m_get a ;;
  match nxt s with
  | None => m_ret true
  | Some n => sn <-- m_get n ;; m_ret (slet_empty sn && bool_decide (nxt sn = None))
  end.
Definition set_nxt (s : slet) (n : option N) := Slet (lo s) (sp s) (hi s) (prev s) n.
Definition set_sp (s : slet) (p : N) := Slet (lo s) p (hi s) (prev s) (nxt s).
(** stack.hpp:128-131 *)
Definition set_next (a : N) (n : option N) : M unit :=
  t <-- is_top a ;; m_assert t ;;;
  s <-- m_get a ;;
  m_set a (set_nxt s n) ;;;
  m_free (nxt s).
(** stack.hpp:138-167 *)
Definition next_stacklet (orc : option N) (size : N) (pr : option N) : M N :=
  match pr with
  | None => m_ret tt
  | Some p => t <-- is_top p ;; m_assert t
  end ;;;
  request <-- round_up_to_page_size (w64 (size + sizeof_stacklet)) ;;
  m_assert (w64 (sizeof_stacklet + size) <=? request) ;;;
  r <-- malloc orc request ;;
  match r with
  | None => m_throw
  | Some a =>
      match pr with
      | None => m_ret tt
      | Some p => set_next p (Some a)
      end ;;;
      m_init a (Slet (a + sizeof_stacklet) (a + sizeof_stacklet) (a + request) pr None) ;;;
      m_ret a
  end.

(** ** The class [stack]: its only member [m_fib] is the first argument, the new
    value of [m_fib] is returned. *)

(** stack.hpp:208 *)
Definition stack_ctor (orc : option N) : M N := next_stacklet orc init_size None.
(** stack.hpp:213-216 *)
Definition stack_from (frag : N) : M N :=
  t <-- is_top frag ;; m_assert t ;;; m_ret frag.
(** stack.hpp:248-253 *)
Definition stack_dtor (fib : N) : M unit :=
  s <-- m_get fib ;;
  m_assert (bool_decide (prev s = None)) ;;;
  set_next fib None ;;;
  m_free (Some fib).
(** stack.hpp:258-261 *)
Definition stack_empty (fib : N) : M bool :=
  t <-- is_top fib ;; m_assert t ;;;
  s <-- m_get fib ;; m_ret (slet_empty s && bool_decide (prev s = None)).
(** stack.hpp:268-272: returns (new m_fib, released stacklet). *)
Definition stack_release (orc : option N) (fib : N) : M (N * N) :=
  n <-- next_stacklet orc init_size None ;; m_ret (n, fib).
(** stack.hpp:286 *)
Definition ext_size (size : N) : N := mask_down k_new_align (w64 (size + k_new_align - 1)).
(** stack.hpp:281-301: returns (new m_fib, pointer). *)
Definition stack_allocate (orc : option N) (fib size : N) : M (N * N) :=
  t <-- is_top fib ;; m_assert t ;;;
  s <-- m_get fib ;;
  u <-- unused s ;;
  fib' <-- (if u <? ext_size size then
              grow <-- (match nxt s with
                        | Some n => sn <-- m_get n ;; c <-- m_capacity sn ;; m_ret (negb (ext_size size <=? c))
                        | None => m_ret true
                        end) ;;
              if grow : bool
              then c <-- m_capacity s ;;
                   next_stacklet orc (N.max (w64 (2 * c)) (ext_size size)) (Some fib)
              else match nxt s with Some n => m_ret n | None => fun _ => Ub end
            else m_ret fib) ;;
  t' <-- is_top fib' ;; m_assert t' ;;;
  s' <-- m_get fib' ;;
  m_set fib' (set_sp s' (sp s' + ext_size size)) ;;;
  m_ret (fib', sp s').
(** stack.hpp:308-337: returns the new m_fib. *)
Definition stack_deallocate (fib ptr : N) : M N :=
  t <-- is_top fib ;; m_assert t ;;;
  s <-- m_get fib ;;
  m_set fib (set_sp s ptr) ;;;
  s1 <-- m_get fib ;;
  fib' <-- (if slet_empty s1 then
              f <-- (match prev s1 with
                     | Some p => set_next fib None ;;; m_ret p
                     | None => m_ret fib
                     end) ;;
              sf <-- m_get f ;;
              (match nxt sf with
               | Some n =>
                   sn <-- m_get n ;;
                   cn <-- m_capacity sn ;;
                   cf <-- m_capacity sf ;;
                   if w64 (8 * cf) <? cn then set_next f None else m_ret tt
               | None => m_ret tt
               end) ;;;
              m_ret f
            else m_ret fib) ;;
  t' <-- is_top fib' ;; m_assert t' ;;;
  m_ret fib'.
(** stack.hpp:342-345 *)
Definition stack_top (fib : N) : M N :=
  t <-- is_top fib ;; m_assert t ;;; m_ret fib.

(** ** A world of many stacks (one per worker thread, plus released ones)

    Stack objects are named by [nat] handles; the value is [m_fib].  A stacklet
    released by [stack::release] is kept under a fresh handle until it is
    re-adopted with [*tls::stack() = stack{stacklet}] (promise.hpp:108,132;
    awaitables.hpp:136,416; resume.hpp:48). *)
Record world := World { wheap : heap; wst : gmap nat N }.

Inductive op :=
| ONew (h : nat) (orc : option N)             (* stack object constructed *)
| ODestroy (h : nat)                          (* stack object destroyed *)
| OAlloc (h : nat) (size : N) (orc : option N)
| ODealloc (h : nat) (ptr : N)
| ORelease (h t : nat) (orc : option N)       (* park the old stack under t *)
| OAdopt (h t : nat)                          (* *h = stack{t} *)
| OEmpty (h : nat)
| OTop (h : nat).

Inductive out :=
| RUnit | RPtr (p : N) | RBool (b : bool) | RThrow | RUB.

Definition handle_none {A} (o : option A) : bool := match o with None => true | _ => false end.

(** One operation.  Using a handle that does not exist is [RUB]. *)
Definition step (w : world) (o : op) : world * out :=
  match o with
  | ONew h orc =>
      match wst w !! h with
      | Some _ => (w, RUB)
      | None =>
          match stack_ctor orc (wheap w) with
          | Ret hp f => (World hp (<[h := f]> (wst w)), RUnit)
          | Thr hp => (World hp (wst w), RThrow)
          | Ub => (w, RUB)
          end
      end
  | ODestroy h =>
      match wst w !! h with
      | None => (w, RUB)
      | Some f =>
          match stack_dtor f (wheap w) with
          | Ret hp _ => (World hp (delete h (wst w)), RUnit)
          | Thr hp => (World hp (wst w), RThrow)
          | Ub => (w, RUB)
          end
      end
  | OAlloc h size orc =>
      match wst w !! h with
      | None => (w, RUB)
      | Some f =>
          match stack_allocate orc f size (wheap w) with
          | Ret hp (f', p) => (World hp (<[h := f']> (wst w)), RPtr p)
          | Thr hp => (World hp (wst w), RThrow)
          | Ub => (w, RUB)
          end
      end
  | ODealloc h p =>
      match wst w !! h with
      | None => (w, RUB)
      | Some f =>
          match stack_deallocate f p (wheap w) with
          | Ret hp f' => (World hp (<[h := f']> (wst w)), RUnit)
          | Thr hp => (World hp (wst w), RThrow)
          | Ub => (w, RUB)
          end
      end
  | ORelease h t orc =>
      match wst w !! h, wst w !! t with
      | Some f, None =>
          match stack_release orc f (wheap w) with
          | Ret hp (n, old) => (World hp (<[t := old]> (<[h := n]> (wst w))), RPtr old)
          | Thr hp => (World hp (wst w), RThrow)
          | Ub => (w, RUB)
          end
      | _, _ => (w, RUB)
      end
  | OAdopt h t =>
      (* temporary = stack{frag}; swap; ~temporary, which holds the old m_fib *)
      match wst w !! h, wst w !! t with
      | Some f, Some g =>
          match (x <-- stack_from g ;; stack_dtor f ;;; m_ret x) (wheap w) with
          | Ret hp g' => (World hp (<[h := g']> (delete t (wst w))), RUnit)
          | Thr hp => (World hp (wst w), RThrow)
          | Ub => (w, RUB)
          end
      | _, _ => (w, RUB)
      end
  | OEmpty h =>
      match wst w !! h with
      | None => (w, RUB)
      | Some f =>
          match stack_empty f (wheap w) with
          | Ret hp b => (World hp (wst w), RBool b)
          | Thr hp => (World hp (wst w), RThrow)
          | Ub => (w, RUB)
          end
      end
  | OTop h =>
      match wst w !! h with
      | None => (w, RUB)
      | Some f =>
          match stack_top f (wheap w) with
          | Ret hp p => (World hp (wst w), RPtr p)
          | Thr hp => (World hp (wst w), RThrow)
          | Ub => (w, RUB)
          end
      end
  end.

Definition init : world := World ∅ ∅.

(** Run a list of operations, collecting the outputs. *)
Fixpoint run (w : world) (os : list op) : world * list out :=
  match os with
  | [] => (w, [])
  | o :: r => let '(w1, x) := step w o in
              let '(w2, xs) := run w1 r in (w2, x :: xs)
  end.

(** ** co_new (core/co_alloc.hpp, core/impl/awaitables.hpp:187-225)

    [alloc_awaitable::await_resume] on the current worker's stack [fib], for the
    running frame whose recorded stacklet is [stacklet], [count] objects of
    [szT] bytes.  [ctor_fails] says whether one of the constructors throws.
    Result: [inl (fib', stacklet', p)] on success, [inr fib'] when a constructor
    threw and the memory was given back; a failing malloc is [Thr]. *)
Definition co_new_await (orc : option N) (fib stacklet count szT : N) (ctor_fails : bool)
  : M ((N * N * N) + N) :=
  top <-- stack_top fib ;;
  m_assert (top =? stacklet) ;;;                             (* awaitables.hpp:197 *)
  r <-- stack_allocate orc fib (w64 (count * szT)) ;;        (* :199 *)
  m_assert (count <=? 2 ^ 63 - 1) ;;;                        (* checked_cast, :206, utility.hpp:211-213 *)
  if ctor_fails then
    f2 <-- stack_deallocate (fst r) (snd r) ;;               (* :208 *)
    m_ret (inr f2)
  else
    t2 <-- stack_top (fst r) ;;
    m_ret (inl (fst r, t2, snd r)).                          (* :214-216 *)

(** ~stack_allocated, co_alloc.hpp:95-101: returns (m_fib, recorded stacklet). *)
Definition co_new_release (fib stacklet ptr : N) : M (N * N) :=
  top <-- stack_top fib ;;
  m_assert (stacklet =? top) ;;;
  f <-- stack_deallocate fib ptr ;;
  t <-- stack_top f ;;
  m_ret (f, t).
