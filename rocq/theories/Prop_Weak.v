(** * The work-stealing deque on machines with store buffers (C52, C53). *)

From stdpp Require Import prelude gmap list.
From Coq Require Import ZArith Lia.
From Verif Require Import DequeModel DequeSpec DequeProofs DequeLin WeakModel WeakSpec WeakProofs WeakSteps.
Local Open Scope Z_scope.

(** ** Proofs for any machine, under [sound] *)

Section sound.
Context {V : Type}.
Implicit Types (x : wm V) (h : list (dev V)).

Lemma s_defined p k x h a : wreach p k x h -> sound p x -> wstep_of p a x <> WUndef.
Proof. intros Hr Hp. eapply wstep_defined. by eapply wreach_inv. Qed.

Lemma s_linearizable p k x h : wreach p k x h -> sound p x -> linearizable_up_to_empty h.
Proof.
  intros Hr Hp. pose proof (wreach_inv _ _ _ _ Hr Hp) as H. destruct (winv_contents _ _ _ H) as (q & Hq & _).
  exists h, q. split_and!; [done|done|by eapply winv_phase].
Qed.

Lemma s_returned p k x h : wreach p k x h -> sound p x -> returned h ⊆+ push_calls h.
Proof.
  intros Hr Hp. pose proof (wreach_inv _ _ _ _ Hr Hp) as H.
  etrans; [apply returned_taken; by eapply winv_phase|].
  destruct (winv_contents _ _ _ H) as (q & Hq & _).
  etrans; [apply (submseteq_inserts_r q); reflexivity|].
  rewrite <- (pushed_taken _ _ Hq).
  destruct (winv_phase _ _ _ H None) as [ph Hph].
  etrans; [|apply (pushed_called h ph Hph)].
  - destruct ph as [|[]|]; try done. by apply submseteq_cons.
  - intros [|[] []|] He; try done. by apply (wreach_allowed _ _ _ _ Hr) in He.
Qed.

Lemma s_lost p k x h : wreach p k x h -> sound p x -> exists q, contents h q /\ Permutation (pushed h) (taken h ++ q).
Proof.
  intros Hr Hp. destruct (winv_contents _ _ _ (wreach_inv _ _ _ _ Hr Hp)) as (q & Hq & _).
  exists q. split; [done|by apply pushed_taken].
Qed.

Lemma s_pop_empty p k x h1 h2 w : wreach p k x (h1 ++ ELin w DPop REmpty :: h2) -> sound p x -> contents h2 [].
Proof.
  intros Hr Hp. destruct (wreach_ev _ _ _ _ Hr Hp _ _ _ eq_refl) as (x0 & a & x1 & Hr0 & Hp1 & Hs).
  assert (Hr1 : wreach p k x1 (ELin w DPop REmpty :: h2)) by by apply (wreach_step p k x0 h2 a x1 [_]).
  destruct (winv_contents _ _ _ (wreach_inv _ _ _ _ Hr1 Hp1)) as (q & Hq & _). inversion Hq; subst.
  match goal with H : seq_op _ _ _ _ |- _ => inversion H; subst end. done.
Qed.

Lemma s_stolen p k x h1 h2 i v : wreach p k x (h1 ++ ELin (Some i) DSteal (RSome v) :: h2) -> sound p x ->
  exists q, contents h2 (v :: q).
Proof.
  intros Hr Hp. destruct (wreach_ev _ _ _ _ Hr Hp _ _ _ eq_refl) as (x0 & a & x1 & Hr0 & Hp1 & Hs).
  assert (Hr1 : wreach p k x1 (ELin (Some i) DSteal (RSome v) :: h2)) by by apply (wreach_step p k x0 h2 a x1 [_]).
  destruct (winv_contents _ _ _ (wreach_inv _ _ _ _ Hr1 Hp1)) as (q & Hq & _). inversion Hq; subst.
  match goal with H : seq_op _ _ _ _ |- _ => inversion H; subst end. eauto.
Qed.

Lemma s_steal_lost p k x h1 h2 i : wreach p k x (h1 ++ ELin (Some i) DSteal RLost :: h2) -> sound p x -> took_since (Some i) h2.
Proof.
  intros Hr Hp. destruct (wreach_ev _ _ _ _ Hr Hp _ _ _ eq_refl) as (x0 & a & x1 & Hr0 & Hp1 & Hs).
  pose proof (sound_before _ _ _ _ _ (wreach_bufs _ _ _ _ Hr0) Hs Hp1) as Hp0.
  destruct (w_inv _ _ _ (wreach_inv _ _ _ _ Hr0 Hp0)) as [(r & _ & _ & _ & _ & _ & _ & Hthf & _) _ _ _].
  destruct a as [op fail|j|n]; cbn [wstep_of] in Hs.
  - unfold owner_w, owner, with_cur in Hs. repeat case_match; simplify_eq.
  - specialize (Hthf j). unfold thief_w, thief, memory in Hs. unfold thf_ok in Hthf. cbn in Hs.
    destruct (d_thf (x_view x0) j) eqn:Et; repeat case_match; simplify_eq.
    destruct Hthf as (H1 & H2 & _). apply H2. lia.
  - unfold commit in Hs. repeat case_match; simplify_eq.
Qed.

Lemma s_steal_empty p k x h i x' : wreach p k x h -> sound p x ->
  wstep_of p (WThief i) x = WNext x' [ELin (Some i) DSteal REmpty] ->
  exists q, contents h q /\
    ((length q <= bottoms (x_pend x))%nat \/ (length q <= S (bottoms (x_pend x)))%nat /\ in_phase None h (Called DPop)).
Proof.
  intros Hr Hp Hs. pose proof (wreach_inv _ _ _ _ Hr Hp) as H. pose proof (wreach_rises _ _ _ _ Hr Hp) as Hri.
  apply (rises_le _ (x_cur x) (x_bufs x)) in Hri. rewrite (w_mem _ _ _ H) in Hri. cbn in Hri.
  destruct (w_inv _ _ _ H) as [(r & _ & _ & _ & _ & Hown & Htr & Hthf & q & Hq & Hlen & _) Htop _ _].
  specialize (Hthf i). cbn [wstep_of] in Hs. unfold thief_w, thief, memory in Hs. unfold thf_ok in Hthf. cbn in Hs.
  destruct (d_thf (x_view x) i) eqn:Et; repeat case_match; simplify_eq. destruct Hthf as [Ha Hb]. exists q. split; [done|].
  unfold hi, own_ok, own_tr, own_phase in *.
  destruct (d_own (x_view x)) eqn:Eo; try (left; lia); try (right; split; [lia|done]).
Qed.

End sound.

Lemma sound_x86 {V} (x : wm V) : sound on_x86 x.
Proof. split; [done|by left]. Qed.
Lemma sound_repaired {V} (x : wm V) : sound repaired_on_weak x.
Proof. split; [done|by left]. Qed.
Lemma sound_small {V} (x : wm V) : length (d_bufs (x_view x)) = 1%nat -> sound on_weak x.
Proof. split; [done|by right]. Qed.

(** ** C52: the code on x86 *)

(** No step has undefined behaviour: in particular no thief takes a value that is indeterminate. *)
Theorem C52_no_undefined_behaviour {V} (k : nat) (x : wm V) h a :
  wreach on_x86 k x h -> wstep_of on_x86 a x <> WUndef.
Proof. intros Hr. eapply s_defined; [done|apply sound_x86]. Qed.

(** Every history is that of a sequential deque, except that a steal may report "empty" too early. *)
Theorem C52_linearizable_up_to_empty {V} (k : nat) (x : wm V) h :
  wreach on_x86 k x h -> linearizable_up_to_empty h.
Proof. intros Hr. eapply s_linearizable; [done|apply sound_x86]. Qed.

(** Every value handed out was passed to push, and as often. *)
Theorem C52_nothing_invented_or_duplicated {V} (k : nat) (x : wm V) h :
  wreach on_x86 k x h -> returned h ⊆+ push_calls h.
Proof. intros Hr. eapply s_returned; [done|apply sound_x86]. Qed.

(** What was pushed and not taken is in the deque. *)
Theorem C52_nothing_lost {V} (k : nat) (x : wm V) h :
  wreach on_x86 k x h -> exists q, contents h q /\ Permutation (pushed h) (taken h ++ q).
Proof. intros Hr. eapply s_lost; [done|apply sound_x86]. Qed.

(** When pop reports "empty" there is no item; when steal reports "lost" somebody else took one
    since it was called. *)
Theorem C52_pop_empty {V} (k : nat) (x : wm V) h1 h2 w :
  wreach on_x86 k x (h1 ++ ELin w DPop REmpty :: h2) -> contents h2 [].
Proof. intros Hr. eapply s_pop_empty; [done|apply sound_x86]. Qed.
Theorem C52_steal_lost {V} (k : nat) (x : wm V) h1 h2 i :
  wreach on_x86 k x (h1 ++ ELin (Some i) DSteal RLost :: h2) -> took_since (Some i) h2.
Proof. intros Hr. eapply s_steal_lost; [done|apply sound_x86]. Qed.

(** When steal reports "empty", the items in the deque are no more than the stores to m_bottom still in the
    owner's store buffer; one more if the owner is in the middle of a pop. *)
Theorem C52_steal_empty {V} (k : nat) (x : wm V) h i x' :
  wreach on_x86 k x h -> wstep_of on_x86 (WThief i) x = WNext x' [ELin (Some i) DSteal REmpty] ->
  exists q, contents h q /\
    ((length q <= bottoms (x_pend x))%nat \/ (length q <= S (bottoms (x_pend x)))%nat /\ in_phase None h (Called DPop)).
Proof. intros Hr. eapply s_steal_empty; [done|apply sound_x86]. Qed.

(** The store buffer can always be emptied, without a step of the owner or a thief; memory then
    holds what the owner sees. *)
Theorem C52_stores_reach_memory {V} (k : nat) (x : wm V) h :
  wreach on_x86 k x h ->
  exists x', wreach on_x86 k x' h /\ x_view x' = x_view x /\ x_pend x' = [] /\
    x_bot x' = d_bot (x_view x) /\ x_cur x' = d_cur (x_view x) /\ x_bufs x' = d_bufs (x_view x).
Proof.
  intros Hr. destruct (drain _ _ _ _ Hr) as (x' & Hr' & Hv & Hp). exists x'.
  pose proof (w_mem _ _ _ (wreach_inv _ _ _ _ Hr' (sound_x86 x'))) as Hm. rewrite Hp, Hv in Hm. cbn in Hm. injection Hm as -> -> ->.
  split_and!; done.
Qed.

(** *** A concrete execution: two pushes into a deque of capacity 1; the thief takes the first item through the
    old buffer while the stores of the second push wait; a second thief finds the deque empty although the second
    push has returned; then the owner pops. *)

Definition wown (op : option nat) (n : nat) : list (wlab nat) := replicate n (WOwner op false).
Definition wthf (i : nat) (n : nat) : list (wlab nat) := replicate n (WThief i).
Definition demo_labels : list (wlab nat) :=
  wown (Some 10%nat) 6 ++ [WCommit 0; WCommit 0]                  (* push 10, visible *)
  ++ wown (Some 20%nat) 7                                         (* push 20, grows, not visible *)
  ++ wthf 0 7                                                     (* steal: 10 *)
  ++ wthf 1 4                                                     (* steal: empty *)
  ++ replicate 4 (WCommit 0)                                      (* slot 0, m_buf, slot 1, m_bottom *)
  ++ wown None 2 ++ [WCommit 0] ++ wown None 3 ++ wown None 1.    (* pop: 20 *)
Definition demo : option (wm nat * list (dev nat)) := wrun on_x86 demo_labels (winit 1) [].
Definition demo_x : wm nat := match demo with Some (x, _) => x | None => winit 1 end.
Definition demo_h : list (dev nat) := match demo with Some (_, h) => h | None => [] end.

Lemma demo_reach : wreach on_x86 0 demo_x demo_h.
Proof.
  pose proof (wrun_reach on_x86 0 demo_labels (winit 1) [] (wreach_init on_x86 0)) as H.
  unfold demo_x, demo_h, demo. destruct (wrun on_x86 demo_labels (winit 1) []) as [[x h]|] eqn:E; [done|].
  exfalso. revert E. vm_compute. done.
Qed.

Example C52_nonvacuous :
  wreach on_x86 0 demo_x demo_h /\
  calls_returns demo_h =
    [ERet None (RSome 20%nat); ECall None DPop;
     ERet (Some 1%nat) REmpty; ECall (Some 1%nat) DSteal;
     ERet (Some 0%nat) (RSome 10%nat); ECall (Some 0%nat) DSteal;
     ERet None RUnit; ECall None (DPush 20%nat); ERet None RUnit; ECall None (DPush 10%nat)].
Proof. split; [apply demo_reach|vm_compute; reflexivity]. Qed.


(** *** A steal may report "empty" too early *)

(** The operation in progress, if any, from calls and returns alone. *)
Fixpoint open_op (w : option nat) (h : list (dev nat)) : option (dop nat) :=
  match h with
  | [] => None
  | ECall w' op :: h' => if decide (w' = w) then Some op else open_op w h'
  | ERet w' _ :: h' => if decide (w' = w) then None else open_op w h'
  | ELin _ _ _ :: h' => open_op w h'
  end.
Definition phase_op (p : phase nat) : option (dop nat) :=
  match p with Idle => None | Called op | Done op _ => Some op end.

Lemma open_op_phase w h p : in_phase w h p -> open_op w h = phase_op p.
Proof.
  induction 1; cbn; try done; rewrite ?decide_True by done; try done; by rewrite decide_False.
Qed.
Lemma open_op_calls w h : open_op w (calls_returns h) = open_op w h.
Proof. induction h as [|[w' op|w' op r|w' r] h IH]; cbn; rewrite ?IH; done. Qed.

Lemma phase_tail (h : list (dev nat)) e : (forall w, exists p, in_phase w (e :: h) p) -> forall w, exists p, in_phase w h p.
Proof. intros H w. destruct (H w) as (p & Hp). inversion Hp; subst; eauto. Qed.

Lemma lin_open w op r h : (forall w', exists p, in_phase w' (ELin w op r :: h) p) -> open_op w (calls_returns h) = Some op.
Proof.
  intros H. destruct (H w) as (p & Hp). rewrite open_op_calls. inversion Hp; subst; [|done].
  match goal with H : in_phase _ _ (Called _) |- _ => exact (open_op_phase _ _ _ H) end.
Qed.

(** The execution: 10 is pushed, push returns; then a steal is called and reports "empty". *)
Definition early_labels : list (wlab nat) := wown (Some 10%nat) 6 ++ wthf 0 4.
Definition early : option (wm nat * list (dev nat)) := wrun on_x86 early_labels (winit 1) [].
Definition early_h : list (dev nat) := match early with Some (_, h) => h | None => [] end.
Definition early_x : wm nat := match early with Some (x, _) => x | None => winit 1 end.
Lemma early_reach : wreach on_x86 0 early_x early_h.
Proof.
  pose proof (wrun_reach on_x86 0 early_labels (winit 1) [] (wreach_init on_x86 0)) as H.
  unfold early_x, early_h, early. destruct (wrun on_x86 early_labels (winit 1) []) as [[x h]|] eqn:E; [done|].
  exfalso. revert E. vm_compute. done.
Qed.
Lemma early_history : calls_returns early_h =
  [ERet (Some 0%nat) REmpty; ECall (Some 0%nat) DSteal; ERet None RUnit; ECall None (DPush 10%nat)].
Proof. vm_compute. reflexivity. Qed.

(** Only a running operation has a linearization point, and only one. *)
Lemma head_closed h e c : (forall w, exists p, in_phase w h p) -> calls_returns h = e :: c ->
  (forall w, open_op w (e :: c) = None) -> exists h2, h = e :: h2 /\ calls_returns h2 = c.
Proof.
  intros Hp Hc Ho. destruct h as [|[w op|w op r|w r] h]; cbn in Hc; [done|injection Hc as <- <-; eauto| |injection Hc as <- <-; eauto].
  apply lin_open in Hp. rewrite Hc, Ho in Hp. done.
Qed.

Lemma not_linearizable :
  ~ linearizable ([ERet (Some 0%nat) REmpty; ECall (Some 0%nat) DSteal; ERet None RUnit; ECall None (DPush 10%nat)] : list (dev nat)).
Proof.
  intros (h & q & Hc & Hs & Hp). cbn in Hc.
  assert (Hin : forall w, open_op w ([ERet (Some 0%nat) REmpty; ECall (Some 0%nat) DSteal; ERet None RUnit; ECall None (DPush 10%nat)]) = None).
  { intros [[|i]|]; reflexivity. }
  destruct (head_closed _ _ _ Hp Hc Hin) as (h2 & -> & Hc2). clear Hin Hc.
  pose proof (phase_tail _ _ Hp) as Hp2.
  destruct (Hp (Some 0%nat)) as (p & Hp0). inversion Hp0 as [| | |op r h0 Hd| | |]; subst; [|done].
  destruct h2 as [|[w op'|w op' r'|w r'] h3]; cbn in Hc2; [done| | |done].
  { injection Hc2 as -> -> Hc2. inversion Hd; subst. done. }
  pose proof (lin_open _ _ _ _ Hp2) as Ho. rewrite Hc2 in Ho. cbn in Ho.
  destruct w as [[|i]|]; cbn in Ho; try done. injection Ho as <-. inversion Hd as [| |op0 r0 h0 Hd3| | | |]; subst; [|done].
  inversion Hs as [| | |w0 r0 h0 q0 Hs2]; subst. inversion Hs2 as [|w0 op0 r0 h0 q0 q1 Hs3 Hop Hem| |]; subst.
  specialize (Hem eq_refl eq_refl) as ->. clear Hs Hs2 Hop Hp Hp0.
  pose proof (phase_tail _ _ Hp2) as Hp3. clear Hp2 Hd.
  destruct h3 as [|[w op'|w op' r'|w r'] h4]; cbn in Hc2; [done| | |done].
  2:{ pose proof (lin_open _ _ _ _ Hp3) as Ho. rewrite Hc2 in Ho. cbn in Ho.
      destruct w as [[|i]|]; cbn in Ho; try done. inversion Hd3; subst. done. }
  injection Hc2 as -> -> Hc4. inversion Hs3 as [| |w0 op0 h0 q0 Hs4|]; subst. pose proof (phase_tail _ _ Hp3) as Hp4.
  assert (Hin : forall w, open_op w ([ERet None RUnit; ECall None (DPush 10%nat)]) = None).
  { intros [[|i]|]; reflexivity. }
  destruct (head_closed _ _ _ Hp4 Hc4 Hin) as (h5 & -> & Hc5).
  destruct (Hp4 None) as (p & Hp0). inversion Hp0 as [| | |op r h0 Hd| | |]; subst; [|done].
  inversion Hs4 as [| | |w0 r0 h0 q0 Hs5]; subst. pose proof (phase_tail _ _ Hp4) as Hp5.
  destruct h5 as [|[w op'|w op' r'|w r'] h6]; cbn in Hc5; [done| | |done].
  { injection Hc5 as -> -> Hc5. inversion Hd; subst. done. }
  pose proof (lin_open _ _ _ _ Hp5) as Ho. rewrite Hc5 in Ho. cbn in Ho.
  destruct w as [[|i]|]; cbn in Ho; try done. injection Ho as <-. inversion Hd; subst; [|done].
  inversion Hs5 as [|w0 op0 r0 h0 q0 q1 Hs6 Hop Hem| |]; subst. inversion Hop; subst. by destruct q0.
Qed.

Lemma linearizable_calls (h : list (dev nat)) : linearizable h -> linearizable (calls_returns h).
Proof.
  intros (h' & q & Hc & Hs & Hp). exists h', q. split_and!; try done. rewrite Hc. symmetry.
  clear. induction h as [|[w op|w op r|w r] h IH]; cbn; rewrite ?IH; done.
Qed.

(** So C19_linearizable, which holds if all stores are visible at once, fails on x86. *)
Theorem C52_linearizable_refuted : ~ forall (k : nat) (x : wm nat) h, wreach on_x86 k x h -> linearizable h.
Proof.
  intros H. specialize (H _ _ _ early_reach). apply linearizable_calls in H. rewrite early_history in H. by apply not_linearizable.
Qed.

(** The bound of C52_steal_empty is met: one item, one store waiting. *)
Example C52_steal_empty_nonvacuous :
  exists x h x', wreach on_x86 0 x h /\ contents h [10%nat] /\ bottoms (x_pend x) = 1%nat /\
    wstep_of on_x86 (WThief 0) x = WNext x' [ELin (Some 0%nat) DSteal REmpty].
Proof.
  pose proof (wrun_reach on_x86 0 (firstn 8 early_labels) (winit 1) [] (wreach_init on_x86 0)) as Hr.
  destruct (wrun on_x86 (firstn 8 early_labels) (winit 1) []) as [[x h]|] eqn:E; [|exfalso; revert E; vm_compute; done].
  vm_compute in E. injection E as <- <-. eexists _, _, _. split; [exact Hr|]. split_and!; [|done|vm_compute; reflexivity].
  repeat first [apply (contents_lin _ _ _ _ []); [|apply (seq_push 10%nat [])]|constructor].
Qed.

(** *** The fence of pop is needed: without it, an item is handed out twice. *)
Definition unfenced_labels : list (wlab nat) :=
  wown (Some 10%nat) 6 ++ [WCommit 0; WCommit 0] ++ wown (Some 20%nat) 6 ++ [WCommit 0; WCommit 0]
  ++ wown None 4                       (* pop: 20; the store to m_bottom waits *)
  ++ wthf 0 7                          (* steal: 10 *)
  ++ wthf 0 7.                         (* steal: 20 *)
Definition unfenced : option (wm nat * list (dev nat)) := wrun unfenced_on_x86 unfenced_labels (winit 2) [].
Example unfenced_duplicates :
  match unfenced with Some (_, h) => returned h = [20%nat; 10%nat; 20%nat] /\ push_calls h = [20%nat; 10%nat] | None => False end.
Proof. vm_compute. done. Qed.

(** ** C53: machines that reorder stores *)

(** The full statement, for the code as it is: false.  Line 395 stores the address of the new buffer with
    memory_order_relaxed, so it may reach memory before the items copied into the buffer (line 119).  A thief that
    read m_bottom before loads the new buffer, reads a slot that was not written and wins the race for it. *)
Definition reorder_labels : list (wlab nat) :=
  wown (Some 10%nat) 6 ++ [WCommit 0; WCommit 0]     (* push 10, visible *)
  ++ wthf 0 3                                        (* the thief has read m_top and m_bottom *)
  ++ wown (Some 20%nat) 4                            (* push 20: copies 10, publishes the new buffer *)
  ++ [WCommit 1]                                     (* m_buf reaches memory first *)
  ++ wthf 0 2.                                       (* the thief reads the empty slot *)
Definition reorder : option (wm nat * list (dev nat)) := wrun on_weak reorder_labels (winit 1) [].

Theorem C53_no_undefined_behaviour_refuted :
  ~ forall (k : nat) (x : wm nat) h a, wreach on_weak k x h -> wstep_of on_weak a x <> WUndef.
Proof.
  intros H. pose proof (wrun_reach on_weak 0 reorder_labels (winit 1) [] (wreach_init on_weak 0)) as Hr.
  destruct (wrun on_weak reorder_labels (winit 1) []) as [[x h]|] eqn:E; [|revert E; vm_compute; done].
  apply (H 0%nat x h (WThief 0) Hr). vm_compute in E. injection E as <- <-. vm_compute. reflexivity.
Qed.

(** It holds for the code as it is while the buffer has not been replaced. *)
Theorem C53_no_undefined_behaviour_partial {V} (k : nat) (x : wm V) h a :
  wreach on_weak k x h -> length (d_bufs (x_view x)) = 1%nat -> wstep_of on_weak a x <> WUndef.
Proof. intros Hr Hl. eapply s_defined; [done|by apply sound_small]. Qed.
Theorem C53_linearizable_up_to_empty_partial {V} (k : nat) (x : wm V) h :
  wreach on_weak k x h -> length (d_bufs (x_view x)) = 1%nat -> linearizable_up_to_empty h.
Proof. intros Hr Hl. eapply s_linearizable; [done|by apply sound_small]. Qed.
Theorem C53_nothing_invented_or_duplicated_partial {V} (k : nat) (x : wm V) h :
  wreach on_weak k x h -> length (d_bufs (x_view x)) = 1%nat -> returned h ⊆+ push_calls h.
Proof. intros Hr Hl. eapply s_returned; [done|by apply sound_small]. Qed.

(** With memory_order_release in line 395 it holds of all executions. *)
Theorem C53_release_no_undefined_behaviour {V} (k : nat) (x : wm V) h a :
  wreach repaired_on_weak k x h -> wstep_of repaired_on_weak a x <> WUndef.
Proof. intros Hr. eapply s_defined; [done|apply sound_repaired]. Qed.
Theorem C53_release_linearizable_up_to_empty {V} (k : nat) (x : wm V) h :
  wreach repaired_on_weak k x h -> linearizable_up_to_empty h.
Proof. intros Hr. eapply s_linearizable; [done|apply sound_repaired]. Qed.
Theorem C53_release_nothing_invented_or_duplicated {V} (k : nat) (x : wm V) h :
  wreach repaired_on_weak k x h -> returned h ⊆+ push_calls h.
Proof. intros Hr. eapply s_returned; [done|apply sound_repaired]. Qed.

(** The reordering machine does reorder: in these executions a later store reaches memory before an earlier one
    (the slots of the new buffer, indices 0 and 1, in reverse order), and items are stolen. *)
Definition swap_labels : list (wlab nat) :=
  wown (Some 10%nat) 6 ++ [WCommit 0; WCommit 0] ++ wown (Some 20%nat) 6 ++ [WCommit 0; WCommit 0]
  ++ wown (Some 30%nat) 7                            (* grows: copies 10 and 20 *)
  ++ [WCommit 1; WCommit 0; WCommit 0; WCommit 0; WCommit 0]
  ++ wthf 0 7 ++ wthf 0 7 ++ wthf 0 7.
Example C53_nonvacuous :
  match wrun repaired_on_weak swap_labels (winit 2) [] with
  | Some (x, h) => returned h = [30%nat; 20%nat; 10%nat] /\ length (d_bufs (x_view x)) = 2%nat
  | None => False
  end /\
  match wrun on_weak (wown (Some 10%nat) 6 ++ [WCommit 0; WCommit 0] ++ wthf 0 7) (winit 4) [] with
  | Some (x, h) => returned h = [10%nat] /\ length (d_bufs (x_view x)) = 1%nat
  | None => False
  end.
Proof. vm_compute. done. Qed.

Print Assumptions C52_no_undefined_behaviour.
Print Assumptions C52_linearizable_up_to_empty.
Print Assumptions C52_nothing_invented_or_duplicated.
Print Assumptions C52_nothing_lost.
Print Assumptions C52_pop_empty.
Print Assumptions C52_steal_lost.
Print Assumptions C52_steal_empty.
Print Assumptions C52_stores_reach_memory.
Print Assumptions C52_linearizable_refuted.
Print Assumptions C53_no_undefined_behaviour_refuted.
Print Assumptions C53_no_undefined_behaviour_partial.
Print Assumptions C53_linearizable_up_to_empty_partial.
Print Assumptions C53_nothing_invented_or_duplicated_partial.
Print Assumptions C53_release_no_undefined_behaviour.
Print Assumptions C53_release_linearizable_up_to_empty.
Print Assumptions C53_release_nothing_invented_or_duplicated.
