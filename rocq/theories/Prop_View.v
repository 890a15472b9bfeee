(** * The work-stealing deque on the memory model of C++ (C74). *)

From stdpp Require Import prelude gmap list.
From Coq Require Import ZArith Lia.
From Verif Require Import DequeModel DequeSpec DequeProofs DequeLin WeakSpec ViewModel ViewProofs ViewSteps.
From Verif Require Prop_Weak.
Import ViewModel.
Local Open Scope Z_scope.

(** ** Proofs under [good] *)

Section sound.
Context {V : Type}.
Implicit Types (s : vm V) (h : list (dev V)).

Lemma g_linearizable o k s h : vreach o k s h -> good o s -> linearizable_up_to_empty h.
Proof.
  intros Hr Hp. pose proof (vreach_inv _ _ _ _ Hr Hp) as H. destruct (inv_contents _ _ H) as (q & Hq).
  exists h, q. split_and!; [done|done|by eapply inv_phase].
Qed.

Lemma g_returned o k s h : vreach o k s h -> good o s -> returned h ⊆+ push_calls h.
Proof.
  intros Hr Hp. pose proof (vreach_inv _ _ _ _ Hr Hp) as H.
  etrans; [apply returned_taken; by eapply inv_phase|].
  destruct (inv_contents _ _ H) as (q & Hq).
  etrans; [apply (submseteq_inserts_r q); reflexivity|].
  rewrite <- (pushed_taken _ _ Hq).
  destruct (inv_phase _ _ H None) as [ph Hph].
  etrans; [|apply (pushed_called h ph Hph)].
  - destruct ph as [|[]|]; try done. by apply submseteq_cons.
  - intros [|[] []|] He; try done. by apply (vreach_allowed _ _ _ _ Hr) in He.
Qed.

Lemma g_lost o k s h : vreach o k s h -> good o s -> exists q, contents h q /\ Permutation (pushed h) (taken h ++ q).
Proof.
  intros Hr Hp. destruct (inv_contents _ _ (vreach_inv _ _ _ _ Hr Hp)) as (q & Hq).
  exists q. split; [done|by apply pushed_taken].
Qed.

Lemma g_pop_empty o k s h1 h2 w : vreach o k s (h1 ++ ELin w DPop REmpty :: h2) -> good o s -> contents h2 [].
Proof.
  intros Hr Hp. destruct (vreach_ev _ _ _ _ Hr Hp _ _ _ eq_refl) as (s0 & a & s1 & Hr0 & Hp1 & Hs).
  assert (Hr1 : vreach o k s1 (ELin w DPop REmpty :: h2)) by by apply (vreach_step o k s0 h2 a s1 [_]).
  destruct (inv_contents _ _ (vreach_inv _ _ _ _ Hr1 Hp1)) as (q & Hq). inversion Hq; subst.
  match goal with H : seq_op _ _ _ _ |- _ => inversion H; subst end. done.
Qed.

End sound.

Lemma good_repaired {V} (s : vm V) : good repaired s.
Proof. repeat split. by left. Qed.
Lemma good_small {V} (s : vm V) : length (m_bufs s) = 1%nat -> good the_code s.
Proof. repeat split. by right. Qed.

(** ** The code as it is *)

(** The full statement is false: as in C53, line 395 stores the address of the new buffer with
    memory_order_relaxed; a thief that has read m_bottom before loads the new address, a slot of the new
    buffer before the copy was stored in it, and wins the race for it. *)
Definition own (op : option nat) (ns : list nat) : list (vlab nat) := VOwner op false <$> ns.
Definition thf (i : nat) (ns : list nat) : list (vlab nat) := VThief i <$> ns.
(** Push, reading message [t] of m_top, without and with growth; pop that reads message [t] of m_top and takes. *)
Definition push_ (v t : nat) : list (vlab nat) := own (Some v) [0; t; 0; 0; 0; 0; 0]%nat.
Definition grow_ (v t : nat) : list (vlab nat) := own (Some v) [0; t; 0; 0; 0; 0; 0; 0]%nat.
Definition pop_ (t : nat) : list (vlab nat) := own None [0; 0; 0; t; 0]%nat.
(** Steal, reading message [t] of m_top, [b] of m_bottom, [c] of m_buf, [x] of the slot. *)
Definition steal_ (i t b c x : nat) : list (vlab nat) := thf i [0; t; 0; b; c; x; 0; 0]%nat.

(** A schedule after which a step is undefined; a schedule with a given trace. *)
Lemma run_undef o k ls a :
  match vrun o ls (vinit (2 ^ Z.of_nat k)) [] with
  | Some (s, _) => match vstep_of o a s with VUndef => true | _ => false end
  | None => false
  end = true -> exists (s : vm nat) h, vreach o k s h /\ vstep_of o a s = VUndef.
Proof.
  intros E. pose proof (vrun_reach o k ls _ [] (vreach_init o k)) as Hr.
  destruct (vrun o ls _ []) as [[s h]|]; [|done]. exists s, h. split; [done|]. by destruct (vstep_of o a s).
Qed.
Lemma run_trace o k ls h : snd <$> vrun o ls (vinit (2 ^ Z.of_nat k)) [] = Some h -> exists s : vm nat, vreach o k s h.
Proof.
  intros E. pose proof (vrun_reach o k ls _ [] (vreach_init o k)) as Hr.
  destruct (vrun o ls _ []) as [[s h']|]; [|done]. injection E as <-. by exists s.
Qed.

Definition ub_labels : list (vlab nat) :=
  push_ 10 0                                         (* push 10 *)
  ++ thf 0 [0; 0; 0; 1]%nat                          (* the thief has read m_top = 0 and m_bottom = 1 *)
  ++ grow_ 20 0                                      (* push 20: copies 10 into a new buffer *)
  ++ thf 0 [1; 0]%nat.                               (* the thief reads the new m_buf and the slot before the copy *)

Theorem C74_no_undefined_behaviour_refuted :
  ~ forall (k : nat) (s : vm nat) h a, vreach the_code k s h -> vstep_of the_code a s <> VUndef.
Proof.
  intros H. destruct (run_undef the_code 0 ub_labels (VThief 0 0)) as (s & h & Hr & E); [vm_compute; reflexivity|].
  exact (H _ _ _ _ Hr E).
Qed.

(** It holds while the first ring buffer is in use. *)
Theorem C74_no_undefined_behaviour_partial {V} (k : nat) (s : vm V) h a :
  vreach the_code k s h -> length (m_bufs s) = 1%nat -> vstep_of the_code a s <> VUndef.
Proof. intros Hr Hl. eapply vreach_defined; [done|by apply good_small]. Qed.
Theorem C74_linearizable_up_to_empty_partial {V} (k : nat) (s : vm V) h :
  vreach the_code k s h -> length (m_bufs s) = 1%nat -> linearizable_up_to_empty h.
Proof. intros Hr Hl. eapply g_linearizable; [done|by apply good_small]. Qed.
Theorem C74_nothing_invented_or_duplicated_partial {V} (k : nat) (s : vm V) h :
  vreach the_code k s h -> length (m_bufs s) = 1%nat -> returned h ⊆+ push_calls h.
Proof. intros Hr Hl. eapply g_returned; [done|by apply good_small]. Qed.
Theorem C74_nothing_lost_partial {V} (k : nat) (s : vm V) h :
  vreach the_code k s h -> length (m_bufs s) = 1%nat -> exists q, contents h q /\ Permutation (pushed h) (taken h ++ q).
Proof. intros Hr Hl. eapply g_lost; [done|by apply good_small]. Qed.
Theorem C74_pop_empty_partial {V} (k : nat) (s : vm V) h1 h2 w :
  vreach the_code k s (h1 ++ ELin w DPop REmpty :: h2) -> length (m_bufs s) = 1%nat -> contents h2 [].
Proof. intros Hr Hl. eapply g_pop_empty; [done|by apply good_small]. Qed.

(** ** With memory_order_release in line 395 *)

(** No step has undefined behaviour. *)
Theorem C74_release_no_undefined_behaviour {V} (k : nat) (s : vm V) h a :
  vreach repaired k s h -> vstep_of repaired a s <> VUndef.
Proof. intros Hr. eapply vreach_defined; [done|apply good_repaired]. Qed.
(** Every history is that of a sequential deque, except that a steal may report "empty" too early. *)
Theorem C74_release_linearizable_up_to_empty {V} (k : nat) (s : vm V) h :
  vreach repaired k s h -> linearizable_up_to_empty h.
Proof. intros Hr. eapply g_linearizable; [done|apply good_repaired]. Qed.
(** Every value handed out was passed to push, and as often. *)
Theorem C74_release_nothing_invented_or_duplicated {V} (k : nat) (s : vm V) h :
  vreach repaired k s h -> returned h ⊆+ push_calls h.
Proof. intros Hr. eapply g_returned; [done|apply good_repaired]. Qed.
(** What was pushed and not taken is in the deque. *)
Theorem C74_release_nothing_lost {V} (k : nat) (s : vm V) h :
  vreach repaired k s h -> exists q, contents h q /\ Permutation (pushed h) (taken h ++ q).
Proof. intros Hr. eapply g_lost; [done|apply good_repaired]. Qed.
(** When pop reports "empty" there is no item. *)
Theorem C74_release_pop_empty {V} (k : nat) (s : vm V) h1 h2 w :
  vreach repaired k s (h1 ++ ELin w DPop REmpty :: h2) -> contents h2 [].
Proof. intros Hr. eapply g_pop_empty; [done|apply good_repaired]. Qed.

(** ** What this memory model does not give *)

(** A steal may report "empty" although push had returned (as C52_linearizable_refuted), also with the repair. *)
Definition early_labels : list (vlab nat) := push_ 10 0 ++ thf 0 [0; 0; 0; 0; 0]%nat.
Theorem C74_linearizable_refuted : ~ forall (k : nat) (s : vm nat) h, vreach repaired k s h -> linearizable h.
Proof.
  intros H. edestruct (run_trace repaired 0 early_labels) as (s & Hr); [vm_compute; reflexivity|].
  specialize (H _ _ _ Hr). apply Prop_Weak.linearizable_calls in H. by apply Prop_Weak.not_linearizable.
Qed.

(** A steal may report "lost" although nobody took an item since it was called (C52_steal_lost holds if the
    memory has one m_top): it may read an m_top from before its call. *)
Definition lost_labels : list (vlab nat) :=
  push_ 10 0 ++ push_ 20 0 ++ steal_ 0 0 2 0 1       (* thief 0 takes 10 *)
  ++ thf 1 [0; 0; 0; 2; 0; 1; 0]%nat.                (* thief 1 is called, reads m_top = 0, loses *)
Theorem C74_lost_only_if_taken_since_refuted :
  ~ forall (k : nat) (s : vm nat) h1 h2 i, vreach repaired k s (h1 ++ ELin (Some i) DSteal RLost :: h2) -> took_since (Some i) h2.
Proof.
  intros H. edestruct (run_trace repaired 1 lost_labels) as (s & Hr); [vm_compute; reflexivity|].
  destruct (H _ _ [] _ _ Hr) as (h1 & h2 & w' & op & v & E1 & Hw & Hn).
  destruct h1 as [|e h1]; [done|]. injection E1 as <- E1. apply (Hn DSteal). apply elem_of_list_here.
Qed.

(** ** The orderings are needed *)

(** Each of the four others, if dropped from the repaired code, lets a thief take an indeterminate value, or two
    callers the same item. *)
Definition no_push := Orders true false true true true.    (* no release fence in line 402 *)
Definition no_pop := Orders true true false true true.     (* no seq_cst fence in line 416 *)
Definition no_steal := Orders true true true false true.   (* no seq_cst fence in line 442 *)
Definition no_acq := Orders true true true true false.     (* m_bottom loaded with memory_order_relaxed in line 443 *)

Definition stale_labels : list (vlab nat) := push_ 10 0 ++ thf 0 [0; 0; 0; 1; 0; 0]%nat.
Definition twice_pop : list (vlab nat) :=
  push_ 10 0 ++ push_ 20 0 ++ pop_ 0 ++ steal_ 0 0 2 0 1 ++ steal_ 0 1 2 0 1.
Definition twice_steal : list (vlab nat) :=
  push_ 10 0 ++ push_ 20 0 ++ steal_ 0 0 2 0 1 ++ thf 1 [0; 1; 0; 2]%nat ++ pop_ 0 ++ thf 1 [0; 1; 0; 0]%nat.

Theorem C74_each_ordering_needed :
  (exists (s : vm nat) h a, vreach no_push 1 s h /\ vstep_of no_push a s = VUndef) /\
  (exists (s : vm nat) h a, vreach no_acq 1 s h /\ vstep_of no_acq a s = VUndef) /\
  (exists (s : vm nat) h, vreach no_pop 1 s h /\ ~ returned h ⊆+ push_calls h) /\
  (exists (s : vm nat) h, vreach no_steal 1 s h /\ ~ returned h ⊆+ push_calls h).
Proof.
  split_and!.
  - destruct (run_undef no_push 1 stale_labels (VThief 0 0)) as (s & h & Hr & E); [vm_compute; reflexivity|eauto].
  - destruct (run_undef no_acq 1 stale_labels (VThief 0 0)) as (s & h & Hr & E); [vm_compute; reflexivity|eauto].
  - edestruct (run_trace no_pop 1 twice_pop) as (s & Hr); [vm_compute; reflexivity|]. eexists s, _. split; [exact Hr|].
    intros Hs. apply submseteq_length in Hs. cbn in Hs. lia.
  - edestruct (run_trace no_steal 1 twice_steal) as (s & Hr); [vm_compute; reflexivity|]. eexists s, _. split; [exact Hr|].
    intros Hs. apply submseteq_length in Hs. cbn in Hs. lia.
Qed.

(** ** Concrete executions *)

(** A deque of capacity 2 grows; a thief that has an old m_bottom takes the first item from the old buffer, another
    thief with an outdated m_top loses, the first thief takes the second item from the new buffer, the owner
    pops the third, and then finds the deque empty. *)
Definition demo_labels : list (vlab nat) :=
  push_ 10 0 ++ push_ 20 0
  ++ thf 0 [0; 0; 0; 2]%nat                          (* thief 0 has read m_top = 0 and m_bottom = 2 *)
  ++ grow_ 30 0                                      (* push 30 grows *)
  ++ thf 0 [0; 1; 0; 0]%nat                          (* old buffer: 10 *)
  ++ thf 1 [0; 0; 0; 3; 1; 1; 0; 0]%nat              (* outdated m_top: lost *)
  ++ steal_ 0 1 3 1 1                                (* new buffer: 20 *)
  ++ own None [0; 0; 0; 2; 0; 0; 0]%nat              (* pop: 30, by compare-and-swap *)
  ++ own None [0; 0; 0; 3; 0; 0]%nat.                (* pop: empty *)
Example C74_nonvacuous :
  match vrun repaired demo_labels (vinit 2) [] with
  | Some (s, h) => length (m_bufs s) = 2%nat /\ calls_returns h =
      [ERet None REmpty; ECall None DPop; ERet None (RSome 30%nat); ECall None DPop;
       ERet (Some 0%nat) (RSome 20%nat); ECall (Some 0%nat) DSteal;
       ERet (Some 1%nat) RLost; ECall (Some 1%nat) DSteal;
       ERet (Some 0%nat) (RSome 10%nat); ERet None RUnit; ECall None (DPush 30%nat);
       ECall (Some 0%nat) DSteal; ERet None RUnit; ECall None (DPush 20%nat); ERet None RUnit; ECall None (DPush 10%nat)]
  | None => False
  end.
Proof. vm_compute. done. Qed.

(** The code as it is, in the first buffer: the owner takes 20, a thief 10, with an outdated m_bottom. *)
Example C74_partial_nonvacuous :
  match vrun the_code (push_ 10 0 ++ push_ 20 0 ++ thf 0 [0; 0; 0]%nat ++ pop_ 0 ++ thf 0 [2; 0; 1; 0; 0]%nat
                       ++ own None [0; 0; 0; 1; 0; 0]%nat) (vinit 2) [] with
  | Some (s, h) => length (m_bufs s) = 1%nat /\ returned h = [10%nat; 20%nat] /\
      firstn 2 h = [ERet None REmpty; ELin None DPop REmpty]
  | None => False
  end.
Proof. vm_compute. done. Qed.

Print Assumptions C74_no_undefined_behaviour_refuted.
Print Assumptions C74_no_undefined_behaviour_partial.
Print Assumptions C74_linearizable_up_to_empty_partial.
Print Assumptions C74_nothing_invented_or_duplicated_partial.
Print Assumptions C74_nothing_lost_partial.
Print Assumptions C74_pop_empty_partial.
Print Assumptions C74_release_no_undefined_behaviour.
Print Assumptions C74_release_linearizable_up_to_empty.
Print Assumptions C74_release_nothing_invented_or_duplicated.
Print Assumptions C74_release_nothing_lost.
Print Assumptions C74_release_pop_empty.
Print Assumptions C74_linearizable_refuted.
Print Assumptions C74_lost_only_if_taken_since_refuted.
Print Assumptions C74_each_ordering_needed.
