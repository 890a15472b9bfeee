(** * Properties of the work-stealing deque (C19, C20, C21). *)

From stdpp Require Import prelude gmap list.
From Coq Require Import ZArith Lia.
From Verif Require Import DequeModel DequeSpec DequeProofs DequeLin.
Local Open Scope Z_scope.

(** ** A concrete execution

    Capacity 1; the owner pushes 10 and 20 (the second push grows the buffer), a
    thief that had read the old buffer loses the race for 10 to another thief, which
    takes it; the owner pops 20 and then finds the deque empty. *)

Definition own (op : option nat) (n : nat) : list (dlab nat) := replicate n (DOwner op false).
Definition demo_labels : list (dlab nat) :=
  own (Some 10%nat) 6 ++ [DThief 0; DThief 0; DThief 0; DThief 0]       (* thief 0 has loaded m_buf *)
  ++ own (Some 20%nat) 7                                               (* grows *)
  ++ [DThief 1; DThief 1; DThief 1; DThief 1; DThief 1; DThief 1; DThief 1]  (* thief 1 takes 10 *)
  ++ [DThief 0; DThief 0; DThief 0]                                    (* thief 0: lost *)
  ++ own None 6                                                        (* pop: 20 *)
  ++ own None 5                                                        (* pop: empty *)
  ++ [DThief 0; DThief 0; DThief 0; DThief 0].                         (* steal: empty *)
Definition demo : option (deque nat * list (dev nat)) := drun demo_labels (init 1) [].
Definition demo_h : list (dev nat) := match demo with Some (_, h) => h | None => [] end.
Definition demo_s : deque nat := match demo with Some (s, _) => s | None => init 1 end.

Lemma demo_reach : reach 0 demo_s demo_h.
Proof.
  pose proof (drun_reach 0 demo_labels (init 1) [] (reach_init 0)) as H.
  unfold demo_s, demo_h, demo. destruct (drun demo_labels (init 1) []) as [[s h]|] eqn:E; [done|].
  exfalso. revert E. vm_compute. done.
Qed.

Example demo_history : calls_returns demo_h =
  [ERet (Some 0%nat) REmpty; ECall (Some 0%nat) DSteal; ERet None REmpty; ECall None DPop;
   ERet None (RSome 20%nat); ECall None DPop;
   ERet (Some 0%nat) RLost; ERet (Some 1%nat) (RSome 10%nat); ECall (Some 1%nat) DSteal; ERet None RUnit; ECall None (DPush 20%nat);
   ECall (Some 0%nat) DSteal; ERet None RUnit; ECall None (DPush 10%nat)].
Proof. vm_compute. reflexivity. Qed.

(** ** C19 *)

(** Every history of calls and returns is linearizable: the operations have an
    order, compatible with their calls and returns, in which they are those of a
    sequential deque (pop the newest, steal the oldest, empty iff there is no item). *)
Theorem C19_linearizable {V} (k : nat) (s : deque V) h : reach k s h -> linearizable h.
Proof. apply reach_linearizable. Qed.

Example C19_linearizable_nonvacuous : linearizable demo_h /\ (length demo_h > 20)%nat.
Proof. split; [apply (C19_linearizable 0 demo_s), demo_reach|vm_compute; lia]. Qed.

(** Every value handed out by pop or steal was passed to push, and as often. *)
Theorem C19_nothing_invented_or_duplicated {V} (k : nat) (s : deque V) h :
  reach k s h -> returned h ⊆+ push_calls h.
Proof.
  intros Hr. etrans; [apply returned_taken; by eapply reach_phase|].
  destruct (reach_contents _ _ _ Hr) as (q & Hq & _).
  etrans; [apply (submseteq_inserts_r q); reflexivity|].
  rewrite <- (pushed_taken _ _ Hq).
  destruct (reach_phase _ _ _ Hr None) as [p Hp].
  etrans; [|apply (pushed_called h p Hp)].
  - destruct p as [|[]|]; try done. by apply submseteq_cons.
  - intros [|[] []|] He; try done. by apply (allowed_ev _ _ _ Hr) in He.
Qed.

Example C19_nothing_invented_or_duplicated_nonvacuous :
  returned demo_h = [20%nat; 10%nat] /\ push_calls demo_h = [20%nat; 10%nat].
Proof. vm_compute. done. Qed.

(** Nothing is lost: what was pushed and not yet taken is what the deque holds, and
    when the owner is idle its size is the number of those items. *)
Theorem C19_nothing_lost {V} (k : nat) (s : deque V) h :
  reach k s h -> in_phase None h Idle ->
  exists q, contents h q /\ Permutation (pushed h) (taken h ++ q) /\
    ssize (d_bot s) (d_top s) = Z.of_nat (length q) /\
    (is_empty (d_bot s) (d_top s) = true <-> q = []).
Proof.
  intros Hr Hi. destruct (reach_contents _ _ _ Hr) as (q & Hq & Hlen).
  rewrite (idle_hi _ _ _ Hr Hi) in Hlen.
  exists q. split_and!; [done|by apply pushed_taken|..].
  - unfold ssize. lia.
  - unfold is_empty. rewrite bool_decide_eq_true. destruct q; simpl in *; [split; [done|lia]|split; [lia|done]].
Qed.

Example C19_nothing_lost_nonvacuous : reach 0 demo_s demo_h /\ in_phase None demo_h Idle.
Proof.
  split; [apply demo_reach|]. destruct (reach_inv _ _ _ demo_reach) as [(r & _ & _ & _ & _ & _ & Htr & _) _ _ _].
  exact Htr.
Qed.

(** No step has undefined behaviour: no index is negative, no buffer is read that
    does not exist, no loop is endless, no indeterminate value is handed out. *)
Theorem C19_no_undefined_behaviour {V} (k : nat) (s : deque V) h l :
  reach k s h -> dstep_of l s <> Undef.
Proof.
  intros Hr. destruct (step_ok k s h l (reach_inv _ _ _ Hr)) as (s' & tr & -> & _). done.
Qed.

Example C19_no_undefined_behaviour_nonvacuous :
  reach 0 demo_s demo_h /\ dstep_of (DOwner (Some 5%nat) false) demo_s <> Undef.
Proof. split; [apply demo_reach|]. apply (C19_no_undefined_behaviour 0 _ demo_h), demo_reach. Qed.

(** ** C20 *)

(** When pop reports empty there is no item. *)
Theorem C20_pop_empty {V} (k : nat) (s : deque V) h1 h2 w :
  reach k s (h1 ++ ELin w DPop REmpty :: h2) -> contents h2 [].
Proof.
  intros Hr. destruct (reach_ev _ _ _ Hr _ _ _ eq_refl) as (s0 & l & s1 & Hr0 & Hs).
  assert (reach k s1 (ELin w DPop REmpty :: h2)) as Hr1 by by apply (reach_step k s0 h2 l s1 [_]).
  destruct (reach_contents _ _ _ Hr1) as (q & Hq & _). inversion Hq; subst.
  match goal with H : seq_op _ _ _ _ |- _ => inversion H; subst end. done.
Qed.

(** When steal reports "lost", somebody else has taken an item since it was
    called. *)
Theorem C20_steal_lost {V} (k : nat) (s : deque V) h1 h2 i :
  reach k s (h1 ++ ELin (Some i) DSteal RLost :: h2) -> took_since (Some i) h2.
Proof.
  intros Hr. destruct (reach_ev _ _ _ Hr _ _ _ eq_refl) as (s0 & l & s1 & Hr0 & Hs).
  destruct (reach_inv _ _ _ Hr0) as [(r & _ & _ & _ & _ & _ & _ & Hthf & _) _ _ _].
  destruct l as [op fail|j]; simpl in Hs.
  - unfold owner, with_cur in Hs. repeat case_match; done.
  - specialize (Hthf j). unfold thief in Hs. unfold thf_ok in Hthf.
    destruct (d_thf s0 j) eqn:Et; repeat case_match; try done.
    + injection Hs as <- ->. destruct Hthf as (H1 & H2 & _). apply H2. lia.
Qed.

(** When steal reports "empty" the deque holds no item, or one, and the owner is
    in the middle of a pop that can take it. *)
Theorem C20_steal_empty {V} (k : nat) (s : deque V) h1 h2 i :
  reach k s (h1 ++ ELin (Some i) DSteal REmpty :: h2) ->
  contents h2 [] \/ exists v, contents h2 [v] /\ in_phase None h2 (Called DPop).
Proof.
  intros Hr. destruct (reach_ev _ _ _ Hr _ _ _ eq_refl) as (s0 & l & s1 & Hr0 & Hs).
  destruct (reach_inv _ _ _ Hr0) as [(r & _ & _ & _ & _ & Hown & Htr & Hthf & q & Hq & Hlen & _) Htop _ _].
  destruct l as [op fail|j]; simpl in Hs.
  - unfold owner, with_cur in Hs. repeat case_match; done.
  - specialize (Hthf j). unfold thief in Hs. unfold thf_ok in Hthf.
    destruct (d_thf s0 j) eqn:Et; repeat case_match; try done.
    injection Hs as <- ->. destruct Hthf as [H1 H2].
    unfold hi, own_ok, own_tr, own_phase in *.
    destruct q as [|v q]; [by left|]. simpl in Hlen. right. exists v.
    destruct (d_own s0) eqn:Eo; try lia.
    + assert (q = []) as -> by (destruct q; [done|simpl in *; lia]). done.
    + assert (q = []) as -> by (destruct q; [done|simpl in *; lia]). done.
Qed.

(** Failed operations have no effect. *)
Theorem C20_failed_no_effect {V} (k : nat) (s : deque V) h1 h2 w op r :
  reach k s (h1 ++ ELin w op r :: h2) -> r = REmpty \/ r = RLost \/ r = RThrow ->
  exists q, contents h2 q /\ contents (ELin w op r :: h2) q.
Proof.
  intros Hr Hres. destruct (reach_ev _ _ _ Hr _ _ _ eq_refl) as (s0 & l & s1 & Hr0 & Hs).
  assert (reach k s1 (ELin w op r :: h2)) as Hr1 by by apply (reach_step k s0 h2 l s1 [_]).
  destruct (reach_contents _ _ _ Hr1) as (q & Hq & _). exists q. split; [|done].
  inversion Hq; subst.
  match goal with H : seq_op _ _ _ _ |- _ => inversion H; subst end; try done; by destruct Hres as [|[|]].
Qed.

(** All three failures occur in the concrete execution. *)
Example C20_nonvacuous :
  ELin None DPop REmpty ∈ demo_h /\ ELin (Some 0%nat) DSteal RLost ∈ demo_h /\ ELin (Some 0%nat) DSteal REmpty ∈ demo_h.
Proof. split_and!; apply elem_of_list_In; vm_compute; auto 50. Qed.

(** ... and so does an "empty" steal during the pop of the last item. *)
Definition race_labels : list (dlab nat) :=
  own (Some 10%nat) 6 ++ own None 2 ++ [DThief 0; DThief 0; DThief 0].
Definition race_h : list (dev nat) := match drun race_labels (init 1) [] with Some (_, h) => h | None => [] end.
Example C20_steal_empty_nonvacuous :
  race_h = [ELin (Some 0%nat) DSteal REmpty; ECall (Some 0%nat) DSteal; ECall None DPop;
            ERet None RUnit; ELin None (DPush 10%nat) RUnit; ECall None (DPush 10%nat)].
Proof. vm_compute. reflexivity. Qed.

(** ** C21 *)

(** The capacity is a power of two and at least the number of items.  It has been
    doubled once for each buffer that was replaced. *)
Theorem C21_capacity {V} (k : nat) (s : deque V) h :
  reach k s h ->
  exists r q, d_bufs s !! d_cur s = Some r /\ contents h q /\
    r_cap r = 2 ^ Z.of_nat (k + d_cur s) /\ Z.of_nat (length q) <= r_cap r /\
    length (d_bufs s) = S (d_cur s).
Proof.
  intros Hr. destruct (reach_inv _ _ _ Hr) as [(r & H1 & _ & H2 & H3 & _ & _ & _ & q & Hq & Hlen & _) _ Hc _].
  exists r, q. split_and!; try done. lia.
Qed.

(** It is at most the initial capacity or twice the number of pushes. *)
Theorem C21_capacity_bound {V} (k : nat) (s : deque V) h r :
  reach k s h -> d_bufs s !! d_cur s = Some r ->
  r_cap r <= Z.max (2 ^ Z.of_nat k) (2 * Z.of_nat (length (pushed h))).
Proof. intros Hr Hc. by apply (cap_bound k s h Hr r Hc). Qed.

(** As long as the capacity fits a std::ptrdiff_t, fewer than 64 buffers have been
    replaced, so the vector that keeps them does not allocate. *)
Theorem C21_garbage_fits {V} (k : nat) (s : deque V) h r :
  reach k s h -> d_bufs s !! d_cur s = Some r -> r_cap r < 2 ^ 63 -> (length (d_bufs s) - 1 < 64)%nat.
Proof.
  intros Hr Hc Hlt. destruct (C21_capacity _ _ _ Hr) as (r' & q & Hr' & _ & Hcap & _ & Hlen).
  rewrite Hc in Hr'. injection Hr' as <-. rewrite Hcap in Hlt.
  apply Z.pow_lt_mono_r_iff in Hlt; lia.
Qed.

(** A thief that reads a buffer, the current one or a replaced one, finds it still
    allocated; and if it then succeeds the value it read is the oldest item at that
    moment. *)
Theorem C21_thief_reads_live_buffer {V} (k : nat) (s : deque V) h i t b :
  reach k s h -> d_thf s i = TSlot t b -> exists r, d_bufs s !! b = Some r.
Proof.
  intros Hr Hi. destruct (reach_inv _ _ _ Hr) as [(r & _ & _ & _ & _ & _ & _ & Hthf & _) _ _ _].
  specialize (Hthf i). unfold thf_ok in Hthf. rewrite Hi in Hthf. destruct Hthf as (_ & _ & rb & Hb & _). eauto.
Qed.

Theorem C21_stolen_is_oldest {V} (k : nat) (s : deque V) h i t x s' v :
  reach k s h -> d_thf s i = TCas t x -> dstep_of (DThief i) s = Next s' [ELin (Some i) DSteal (RSome v)] ->
  exists q, contents h (v :: q).
Proof.
  intros Hr Hi Hs.
  assert (reach k s' (ELin (Some i) DSteal (RSome v) :: h)) as Hr1 by by apply (reach_step k s h (DThief i) s' [_]).
  destruct (reach_contents _ _ _ Hr1) as (q & Hq & _). inversion Hq; subst.
  match goal with H : seq_op _ _ _ _ |- _ => inversion H; subst end. eauto.
Qed.

(** The buffer grew in the concrete execution, while a thief held the old one. *)
Definition grow_s : deque nat :=
  match drun (firstn 17 demo_labels) (init 1) [] with Some (s, _) => s | None => init 1 end.
Example C21_nonvacuous : d_cur grow_s = 1%nat /\ d_thf grow_s 0%nat = TSlot 0 0%nat /\ (d_bot grow_s, d_top grow_s) = (2, 0).
Proof. vm_compute. done. Qed.

Print Assumptions C19_linearizable.
Print Assumptions C19_nothing_invented_or_duplicated.
Print Assumptions C19_nothing_lost.
Print Assumptions C19_no_undefined_behaviour.
Print Assumptions C20_pop_empty.
Print Assumptions C20_steal_lost.
Print Assumptions C20_steal_empty.
Print Assumptions C20_failed_no_effect.
Print Assumptions C21_capacity.
Print Assumptions C21_capacity_bound.
Print Assumptions C21_garbage_fits.
Print Assumptions C21_thief_reads_live_buffer.
Print Assumptions C21_stolen_is_oldest.
