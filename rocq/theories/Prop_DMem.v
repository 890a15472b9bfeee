(** * C83: the memory of a deque.

    Model: DMemModel.v.  Specification: DMemSpec.v. *)

From stdpp Require Import prelude gmap list.
From Coq Require Import NArith Lia.
From Verif Require Import DMemModel DMemSpec DMemProofs.

(** The full property would say that no operation of a deque ever loses memory.  That is false of the
    constructor: if the second of its allocations is refused, the buffer is never freed. *)
Definition ctor_keeps_memory : Prop := forall esz cap o1 o2 o3 e h,
  power_of_two cap = true -> ctor esz cap o1 o2 o3 e = Throw h -> h = e.
Theorem C83_constructor_leaks_refuted : ~ ctor_keeps_memory.
Proof.
  intros H. destruct (ctor 8 1024 (Some 1%N) (Some 2%N) None ∅) as [d h|h| |] eqn:E; [by vm_compute in E| |by vm_compute in E..].
  pose proof (H 8%N 1024%N (Some 1%N) (Some 2%N) None ∅ h eq_refl E) as ->.
  assert (match ctor 8 1024 (Some 1%N) (Some 2%N) None ∅ with Throw h => size h = 2 | _ => False end) as X by (by vm_compute).
  by rewrite E, size_empty in X.
Qed.

(** If the constructor throws because memory for the buffer is refused, nothing is lost. *)
Theorem C83_constructor_partial esz cap o1 o2 o3 e h :
  ctor esz cap o1 o2 o3 e = Throw h -> h = e \/ refused (8 * 64) o3 h.
Proof.
  unfold ctor. destruct (power_of_two cap); [|done]. destruct (new_buf_cases esz cap o1 o2 e) as [(b & h1 & E)|(h1 & E)]; rewrite E.
  - destruct (alloc _ o3 h1) as [[v h2]|] eqn:E3; [done|]. intros [= <-]. right. by apply alloc_none in E3.
  - intros [= <-]. left. by eapply new_buf_throw.
Qed.

Section Thms.
(** The size of an element; there are no types of size 0 in C++. *)
Context (esz : N) (Hesz : (0 < esz)%N).

(** The destructor gives back exactly the memory the deque took, freeing nothing twice, whatever was pushed,
    popped and stolen, and whatever else was allocated meanwhile. *)
Theorem C83_destructor_frees_all_partial d h e : alive esz d h e -> dtor d h = Some e.
Proof using Hesz. intros [Hh Hn Ho _ _ _ _]%alive_inv; [|done]. rewrite dtor_frees, Hh. by apply frees_all. Qed.

(** push never terminates the program: the space reserved for replaced buffers is enough. *)
Theorem C83_push_never_terminates_partial d h e v o1 o2 o3 :
  alive esz d h e -> push esz v o1 o2 o3 d h <> Terminates.
Proof using Hesz. intros Ha%alive_inv; [|done]. pose proof (push_ok esz Hesz d h e v o1 o2 o3 Ha) as H. intros E. by rewrite E in H. Qed.

(** A push either adds the item, or throws; it throws only if the deque is full and memory is refused; then
    the deque is as before and no memory is lost. *)
Theorem C83_push_all_or_nothing_partial d h e v o1 o2 o3 : alive esz d h e ->
  (forall d' h', push esz v o1 o2 o3 d h = Ret d' h' -> d_items d' = d_items d ++ [v]) /\
  (forall h', push esz v o1 o2 o3 d h = Throw h' -> h' = h /\ N.of_nat (length (d_items d)) = d_cap d /\
     (refused 24 o1 h \/ exists a, o1 = Some a /\ refused (esz * (2 * d_cap d)) o2 ({[a]} ∪ h))).
Proof using Hesz.
  intros Ha%alive_inv; [|done]. pose proof (push_ok esz Hesz d h e v o1 o2 o3 Ha) as H. split.
  - intros d' h' E. rewrite E in H. apply H.
  - intros h' E. pose proof E as E'. rewrite E in H. destruct H as [-> Hl]. split; [done|]. split; [done|].
    unfold push in E'. case_match; [|done]. case_match; [done|]. unfold new_buf in E'.
    destruct (alloc 24 o1 h) as [[a h1]|] eqn:E1; [|left; by apply alloc_none]. apply alloc_inv in E1 as (-> & _ & -> & _).
    destruct (alloc (esz * (2 * d_cap d)) o2 _) as [[b h2]|] eqn:E2; [|right; exists a; split; [done|by apply alloc_none]].
    exfalso. revert E'. repeat case_match; done.
Qed.

(** If memory is there a push succeeds, and the capacity is at most doubled. *)
Theorem C83_push_succeeds_partial d h e v a b o3 : alive esz d h e -> (esz * (2 * d_cap d) <= ptrdiff_max)%N ->
  a ∉ h -> b ∉ h -> a <> b ->
  exists d' h', push esz v (Some a) (Some b) o3 d h = Ret d' h' /\ (d_cap d' = d_cap d \/ d_cap d' = 2 * d_cap d)%N.
Proof using Hesz.
  intros Ha%alive_inv Hm Hx Hy Hxy; [|done]. destruct Ha as [_ _ _ Hc Hm' Hs _]. unfold push. case_match; [|eauto].
  destruct (N.ltb_spec ptrdiff_max (2 * d_cap d)) as [?|?]; [nia|]. unfold new_buf.
  assert (alloc 24 (Some a) h = Some (a, {[a]} ∪ h)) as ->.
  { unfold alloc. rewrite decide_False; [done|]. intros [?|Hb]; [done|]. by vm_compute in Hb. }
  assert (alloc (esz * (2 * d_cap d)) (Some b) ({[a]} ∪ h) = Some (b, {[b]} ∪ ({[a]} ∪ h))) as ->.
  { unfold alloc. rewrite decide_False; [done|]. intros [?|Hb]; [set_solver|lia]. }
  pose proof (few_growths esz Hesz _ _ Hc Hm'). rewrite Hs. unfold reserved at 1.
  destruct (Nat.ltb_spec (length (d_garbage d)) 64); [|lia]. eexists _, _. split; [done|]. by right.
Qed.

(** If elements have more than one byte, as the pointers to tasks of the library have, no push is undefined:
    the capacity does not overflow. *)
Theorem C83_push_defined_partial d h e v o1 o2 o3 :
  (1 < esz)%N -> alive esz d h e -> push esz v o1 o2 o3 d h <> Undefined.
Proof using Hesz.
  intros H1 Ha%alive_inv E; [|done]. pose proof (push_ok esz Hesz d h e v o1 o2 o3 Ha) as H. rewrite E in H. pose proof (i_max esz _ _ _ Ha). nia.
Qed.
End Thms.

(** A deque can be filled. *)
Lemma fill esz cap d0 h e : alive esz d0 h e -> d_cap d0 = cap -> d_items d0 = [] -> forall n : nat, (N.of_nat n <= cap)%N ->
  exists d, alive esz d h e /\ d_cap d = cap /\ length (d_items d) = n.
Proof.
  intros Ha Hc Hi. induction n as [|n IH]; intros Hn; [exists d0; by rewrite Hi|].
  destruct IH as (d & Hd & Hcap & Hl); [lia|].
  assert (push esz 0 None None None d h = Ret (DQ (d_cap d) (d_buf d) (d_items d ++ [0%N]) (d_garbage d) (d_vec d) (d_space d)) h) as E.
  { unfold push. destruct (N.ltb_spec (d_cap d) (N.of_nat (length (d_items d)) + 1)); [lia|done]. }
  eexists. split; [by eapply alive_push|]. cbn [d_cap d_items]. split; [done|]. rewrite app_length. cbn. lia.
Qed.
Lemma full_overflows esz cap d0 h e : alive esz d0 h e -> d_cap d0 = cap -> d_items d0 = [] -> (ptrdiff_max < 2 * cap)%N ->
  exists d, alive esz d h e /\ forall v o1 o2 o3, push esz v o1 o2 o3 d h = Undefined.
Proof.
  intros Ha Hc Hi Hm. destruct (fill esz cap d0 h e Ha Hc Hi (N.to_nat cap)) as (d & Hd & Hcap & Hl); [lia|]. exists d. split; [done|].
  intros v o1 o2 o3. unfold push. destruct (N.ltb_spec (d_cap d) (N.of_nat (length (d_items d)) + 1)); [|lia].
  destruct (N.ltb_spec ptrdiff_max (2 * d_cap d)); [done|]. rewrite Hcap in *. lia.
Qed.
(** With elements of one byte the computation of the new capacity can overflow. *)
Definition bytes_push_defined : Prop := forall d h e v o1 o2 o3, alive 1 d h e -> push 1 v o1 o2 o3 d h <> Undefined.
Theorem C83_bytes_overflow_refuted : ~ bytes_push_defined.
Proof.
  intros H. destruct (ctor 1 (2 ^ 62) (Some 1%N) (Some 2%N) (Some 3%N) ∅) as [d h| | |] eqn:E; [|by vm_compute in E..].
  assert (d_cap d = 2 ^ 62 /\ d_items d = [])%N as [Hc Hi].
  { assert (match ctor 1 (2 ^ 62) (Some 1%N) (Some 2%N) (Some 3%N) ∅ with Ret d h => d_cap d = (2 ^ 62)%N /\ d_items d = [] | _ => False end) as X
      by (vm_compute; split; reflexivity). by rewrite E in X. }
  destruct (full_overflows 1 (2 ^ 62) d h ∅ (alive_ctor _ _ _ _ _ _ _ _ E) Hc Hi) as (d' & Hd & Hp); [by vm_compute|].
  by apply (H d' h ∅ 0%N None None None Hd).
Qed.

(** ** The hypotheses are met *)

(** A deque of capacity 1 that has grown twice, and from which items are popped and stolen. *)
Definition run (r : res dq) (f : dq -> heap -> res dq) : res dq := match r with Ret d h => f d h | _ => r end.
Definition grown : res dq :=
  run (ctor 8 1 (Some 1) (Some 2) (Some 3) {[100]})%N (fun d h => run (push 8 7 None None None d h)%N
  (fun d h => run (push 8 8 (Some 4) (Some 5) None d h)%N (push 8 9 (Some 6) (Some 7) None)%N)).
Example C83_instance : exists d h, alive 8 d h {[100%N]} /\ grown = Ret d h /\ d_items d = [7; 8; 9]%N /\ d_cap d = 4%N /\
  alive 8 (steal (pop d)) h {[100%N]} /\ d_items (steal (pop d)) = [8%N] /\ size h = 8 /\ dtor (steal (pop d)) h = Some {[100%N]}.
Proof.
  destruct grown as [d h| | |] eqn:E; [|by vm_compute in E..].
  assert (alive 8 d h {[100%N]}) as Ha.
  { unfold grown in E. destruct (ctor 8 1 _ _ _ _) as [d0 h0| | |] eqn:E0; try done. cbn [run] in E.
    destruct (push 8 7 _ _ _ _ _) as [d1 h1| | |] eqn:E1; try done. cbn [run] in E.
    destruct (push 8 8 _ _ _ _ _) as [d2 h2| | |] eqn:E2; try done. cbn [run] in E.
    eapply alive_push; [|exact E]. eapply alive_push; [|exact E2]. eapply alive_push; [|exact E1]. by eapply alive_ctor. }
  assert (alive 8 (steal (pop d)) h {[100%N]}) as Hb by (by apply alive_steal, alive_pop).
  exists d, h. split; [done|]. split; [done|].
  assert (match grown with Ret d h => d_items d = [7; 8; 9]%N /\ d_cap d = 4%N /\ d_items (steal (pop d)) = [8%N] /\ size h = 8 | _ => False end) as H
    by (vm_compute; repeat split; reflexivity).
  rewrite E in H. destruct H as (H1 & H2 & H3 & H4). split_and!; try done. apply (C83_destructor_frees_all_partial 8); [lia|done].
Qed.

(** The second push can be refused. *)
Example C83_refused : exists d h e h', alive 8 d h e /\ push 8 7 (Some 4%N) None None d h = Throw h' /\ size h' = 3.
Proof.
  destruct (run (ctor 8 1 (Some 1) (Some 2) (Some 3) ∅)%N (push 8 7 None None None)) as [d h| | |] eqn:E; [|by vm_compute in E..].
  assert (match run (ctor 8 1 (Some 1) (Some 2) (Some 3) ∅)%N (push 8 7 None None None) with
          | Ret d h => match push 8 7 (Some 4%N) None None d h with Throw h' => size h' = 3 | _ => False end
          | _ => False end) as X by (by vm_compute).
  rewrite E in X. destruct (push 8 7 (Some 4%N) None None d h) as [|h'| |] eqn:E2; try done. exists d, h, ∅, h'. split; [|by split].
  destruct (ctor 8 1 _ _ _ _) as [d0 h0| | |] eqn:E0; try done. cbn [run] in E. eapply alive_push; [by eapply alive_ctor|exact E].
Qed.

Print Assumptions C83_constructor_leaks_refuted.
Print Assumptions C83_constructor_partial.
Print Assumptions C83_destructor_frees_all_partial.
Print Assumptions C83_push_never_terminates_partial.
Print Assumptions C83_push_all_or_nothing_partial.
Print Assumptions C83_push_succeeds_partial.
Print Assumptions C83_push_defined_partial.
Print Assumptions C83_bytes_overflow_refuted.
