(** * Property theorems about segmented stacks (C14-C18, C40). *)

From stdpp Require Import gmap list numbers.
From Verif Require Import StackModel StackSpec StackProofs.
Local Open Scope N_scope.

(** C14: every live allocation is 16-byte aligned and lies, with at least the
    requested size, inside one live heap block past that block's header. *)
Theorem C14_alloc_aligned_in_bounds w c h l x :
  reach w c -> c !! h = Some l -> x ∈ l ->
  exists b s, wheap w !! b = Some s /\ a_ptr x mod 16 = 0 /\
              b + sizeof_stacklet <= a_ptr x /\ a_ptr x + a_size x <= hi s /\ hi s <= addr_limit.
Proof.
  intros Hr Hc Hx. destruct (reach_alloc_placed w c h l x Hr Hc Hx) as (b & s & H1 & _ & H2 & H3 & H4 & H5 & _ & H6).
  exists b, s. repeat split; try assumption. etransitivity; [exact H4|exact H5].
Qed.
Print Assumptions C14_alloc_aligned_in_bounds.

(** C14: two different live allocations, of the same or of different stacks, do
    not overlap. *)
Theorem C14_allocs_disjoint w c h1 h2 i j l1 l2 x y :
  reach w c -> c !! h1 = Some l1 -> c !! h2 = Some l2 -> l1 !! i = Some x -> l2 !! j = Some y ->
  (h1, i) <> (h2, j) -> ~ overlap x y.
Proof. exact (reach_disjoint w c h1 h2 i j l1 l2 x y). Qed.
Print Assumptions C14_allocs_disjoint.

(** C14/C10: no assertion in the stack code fails and no dead block is touched
    or freed, for any legal use. *)
Theorem C14_no_undefined_behaviour w c o w' r :
  reach w c -> legal c o -> step w o = (w', r) -> r <> RUB.
Proof. exact (reach_step_safe w c o w' r). Qed.
Print Assumptions C14_no_undefined_behaviour.

(** C15: once every stack object has been destroyed, nothing is left on the heap
    (freeing a block twice is [RUB], excluded by C14_no_undefined_behaviour). *)
Theorem C15_no_leak w : reach w ∅ -> wheap w = ∅ /\ wst w = ∅.
Proof. exact (reach_no_leak w). Qed.
Print Assumptions C15_no_leak.

(** C15: at any time there are at most two blocks per stack plus one per live
    allocation, so at most one empty block is cached ahead. *)
Theorem C15_blocks_bounded w c :
  reach w c -> (size (wheap w) <= sum_list ((fun p => length (snd p) + 2) <$> map_to_list c))%nat.
Proof. exact (reach_blocks_bounded w c). Qed.
Print Assumptions C15_blocks_bounded.

(** C15: [empty()] answers [true] exactly when every live allocation of the stack
    has size zero; in particular after a balanced sequence. *)
Theorem C15_empty w c h l :
  reach w c -> c !! h = Some l ->
  step w (OEmpty h) = (w, RBool (forallb (fun a => a_size a =? 0) l)).
Proof. exact (reach_empty w c h l). Qed.
Print Assumptions C15_empty.

(** C16: an operation that throws leaves everything as it was. *)
Theorem C16_throw_no_effect w c o w' :
  reach w c -> legal c o -> step w o = (w', RThrow) -> w' = w.
Proof. exact (reach_throw_same w c o w'). Qed.
Print Assumptions C16_throw_no_effect.

(** C17: release parks the stack unchanged and leaves a fresh empty one; adopting
    it gives back the same stack.  In between, operations on other stacks do not
    touch it (next theorem). *)
Theorem C17_release_adopt w c h t orc w1 p :
  reach w c -> legal c (ORelease h t orc) -> step w (ORelease h t orc) = (w1, RPtr p) ->
  tops w h = Some p /\ tops w1 t = Some p /\
  (forall a s, wheap w !! a = Some s -> wheap w1 !! a = Some s) /\
  step w1 (OEmpty h) = (w1, RBool true) /\
  (forall w2 c2 h2 w3, reach w2 c2 -> legal c2 (OAdopt h2 t) -> step w2 (OAdopt h2 t) = (w3, RUnit) ->
     tops w3 h2 = tops w2 t).
Proof. exact (release_adopt w c h t orc w1 p). Qed.
Print Assumptions C17_release_adopt.

Theorem C17_other_stacks_untouched w c o w' r h l x :
  reach w c -> legal c o -> step w o = (w', r) -> c !! h = Some l -> h ∉ op_handles o ->
  wst w' !! h = wst w !! h /\ client_step c o r (tops w') !! h = Some l /\
  (x ∈ l -> wheap w' !! a_top x = wheap w !! a_top x).
Proof. exact (reach_other_untouched w c o w' r h l x). Qed.
Print Assumptions C17_other_stacks_untouched.

(** C10/C17: the test "top() == the stacklet recorded by the frame" used by the
    runtime to decide whether a worker owns a stack is exact. *)
Theorem C10_top_is_newest w c h x l :
  reach w c -> c !! h = Some (x :: l) -> tops w h = Some (a_top x).
Proof. exact (reach_top_newest w c h x l). Qed.
Print Assumptions C10_top_is_newest.
Theorem C10_top_identifies_stack w c h h' x l :
  reach w c -> c !! h = Some l -> x ∈ l -> tops w h' = Some (a_top x) -> h' = h.
Proof. exact (reach_top_owner w c h h' x l). Qed.
Print Assumptions C10_top_identifies_stack.

(** C18, the true part: up to [max_request] the bytes requested from malloc cover
    header and request, and no assertion fails. *)
Theorem C18_request_covers_partial size hp :
  size <= max_request ->
  size <= ext_size size /\
  exists req, round_up_to_page_size (w64 (ext_size size + sizeof_stacklet)) hp = Ret hp req /\
              ext_size size + sizeof_stacklet <= req.
Proof. exact (request_covers size hp). Qed.
Print Assumptions C18_request_covers_partial.

(** C18 as stated (for any 64-bit size) is false.  (1) One byte above the limit an
    assertion fails.  (2) SIZE_MAX rounds to zero bytes: the allocation "succeeds"
    and the next one gets the same address.  (3) For 2^64 - 32 bytes a block of
    4048 bytes is obtained and the stack pointer leaves it. *)
Theorem C18_limit_is_exact_refuted :
  snd (run init [ONew 0 (Some 4096); OAlloc 0 (max_request + 1) (Some 65536)]) = [RUnit; RUB].
Proof. vm_compute. reflexivity. Qed.
Theorem C18_size_max_refuted :
  snd (run init [ONew 0 (Some 4096); OAlloc 0 (2 ^ 64 - 1) None; OAlloc 0 16 None]) = [RUnit; RPtr 4144; RPtr 4144].
Proof. vm_compute. reflexivity. Qed.
Theorem C18_wrapped_request_refuted :
  let '(w, r) := run init [ONew 0 (Some 4096); OAlloc 0 (2 ^ 64 - 32) (Some 65536)] in
  r = [RUnit; RPtr (65536 + 48)] /\ exists s, wheap w !! 65536 = Some s /\ hi s = 65536 + 4048 /\ hi s < sp s.
Proof. vm_compute. split; [reflexivity|]. eexists. split; [reflexivity|]. split; reflexivity. Qed.
Print Assumptions C18_limit_is_exact_refuted.
Print Assumptions C18_size_max_refuted.
Print Assumptions C18_wrapped_request_refuted.

(** C40: co_new.  [f] is the running worker's stack top and the frame's recorded
    stacklet.  On success the span has room for [count] objects (it becomes a
    live allocation, to which C14 applies) and the recorded stacklet is the new
    top; if a constructor throws, the memory is given back; bad_alloc has no
    effect. *)
Theorem C40_co_new w c h l f orc count szT fails :
  reach w c -> c !! h = Some l -> wst w !! h = Some f ->
  count * szT <= max_request -> count < 2 ^ 63 ->
  match co_new_await orc f f count szT fails (wheap w) with
  | Thr hp => hp = wheap w
  | Ret hp (inl (f', t', p)) =>
      fails = false /\ t' = f' /\
      reach (World hp (<[h := f']> (wst w))) (<[h := Alloc p (count * szT) f' :: l]> c)
  | Ret hp (inr f') =>
      fails = true /\ reach (World hp (<[h := f']> (wst w))) c /\ (l <> [] -> f' = f)
  | Ub => False
  end.
Proof. exact (co_new_ok w c h l f orc count szT fails). Qed.
Print Assumptions C40_co_new.

Theorem C40_co_new_release w c h x l f :
  reach w c -> c !! h = Some (x :: l) -> wst w !! h = Some f ->
  exists hp f', co_new_release f f (a_ptr x) (wheap w) = Ret hp (f', f')
    /\ reach (World hp (<[h := f']> (wst w))) (<[h := l]> c).
Proof. exact (co_new_release_ok w c h x l f). Qed.
Print Assumptions C40_co_new_release.

(** C40 without the size hypothesis is false: [count * sizeof(T)] wraps, so
    co_new<16-byte T>(2^60) returns a span of 2^60 objects over zero bytes. *)
Theorem C40_count_overflow_refuted :
  exists hp f t p, co_new_await None 4096 4096 (2 ^ 60) 16 false
       (wheap (fst (run init [ONew 0 (Some 4096)]))) = Ret hp (inl (f, t, p))
     /\ (forall s, hp !! f = Some s -> sp s = p).
Proof.
  vm_compute. do 4 eexists. split; [reflexivity|]. intros s H. injection H as <-. reflexivity.
Qed.
Print Assumptions C40_count_overflow_refuted.

(** ** Non-vacuity: a reachable world with three stacks, a released stack, several
    blocks, a cached block and live allocations. *)
Definition demo : list op :=
  [ ONew 0 (Some 4096); OAlloc 0 100 None; OAlloc 0 0 None; OAlloc 0 5000 (Some 65536);
    OAlloc 0 20000 (Some 131072); ODealloc 0 (131072 + 48);
    ONew 1 (Some 1048576); OAlloc 1 4000 None; ORelease 0 2 (Some 2097152);
    OAlloc 0 64 None ].
Example demo_reach : reach (fst (run_client init ∅ demo)) (snd (run_client init ∅ demo)).
Proof. apply run_client_reach; [apply reach_init|vm_compute; reflexivity]. Qed.
Example demo_shape :
  snd (run_client init ∅ demo) !! 2%nat =
    Some [Alloc (65536 + 48) 5000 65536; Alloc (4096 + 48 + 112) 0 4096; Alloc (4096 + 48) 100 4096]
  /\ size (wheap (fst (run_client init ∅ demo))) = 5%nat
  /\ snd (run_client init ∅ demo) !! 1%nat = Some [Alloc (1048576 + 48) 4000 1048576]
  /\ snd (run_client init ∅ demo) !! 0%nat = Some [Alloc (2097152 + 48) 64 2097152].
Proof. vm_compute. repeat split. Qed.
Example throw_happens :
  snd (step (fst (run_client init ∅ demo)) (OAlloc 1 9000 None)) = RThrow.
Proof. vm_compute. reflexivity. Qed.
Example co_new_happens :
  exists hp f p, co_new_await (Some 8388608) 2097152 2097152 1000 8 false (wheap (fst (run_client init ∅ demo))) = Ret hp (inl (f, f, p)).
Proof. vm_compute. do 3 eexists. reflexivity. Qed.
