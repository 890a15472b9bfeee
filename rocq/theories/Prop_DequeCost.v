(** * C72: the operations of the deque are wait-free, and its memory and copying are bounded by the
      number of items it held.

    Vocabulary: DequeSpec.v and DequeCostSpec.v.  [exec s ls s' tr]: the scheduling decisions [ls]
    lead from [s] to [s'].  [bound op]: 6 for push and steal, 5 for pop.  [held h n]: at some moment
    the deque held [n] items.  [slots s]: the slots of all buffers, including replaced ones. *)

From stdpp Require Import prelude gmap list.
From Coq Require Import ZArith Lia.
From Verif Require Import DequeModel DequeSpec DequeProofs DequeLin DequeCostSpec DequeCost Prop_Deque.
Local Open Scope Z_scope.

(** An operation that has been called returns within [bound op] steps of its caller, whatever the
    others do in between and however often. *)
Theorem C72_wait_free {V} (k : nat) (s : deque V) h w op ls s' tr :
  reach k s h -> in_phase w h (Called op) ->
  exec s ls s' tr -> (bound op <= steps_by w ls)%nat ->
  exists x, ERet w x ∈ tr.
Proof.
  intros Hr Hp He Hn. destruct (called_rank _ _ _ _ _ Hr Hp) as (H0 & H1). eapply exec_returns; [done|done|lia].
Qed.

(** No step waits for anybody: the parties can make their steps in any order. *)
Theorem C72_never_blocked {V} (k : nat) (s : deque V) h ls :
  reach k s h -> exists s' tr, exec s ls s' tr /\ reach k s' (rev tr ++ h).
Proof.
  revert s h. induction ls as [|l ls IH]; intros s h Hr; [exists s, []; split; [constructor|done]|].
  destruct (step_ok k s h l (reach_inv _ _ _ Hr)) as (s1 & tr1 & E & _).
  destruct (IH s1 (rev tr1 ++ h)) as (s2 & tr2 & He & Hr2); [by eapply reach_step|].
  exists s2, (tr1 ++ tr2). split; [by econstructor|]. by rewrite rev_app_distr, <- app_assoc.
Qed.

(** All buffers together, also those that are kept for slow thieves, have at most four slots for
    each item that the deque held at its fullest, or the initial [2^k]. *)
Theorem C72_space {V} (k : nat) (s : deque V) h :
  reach k s h -> exists n, held h n /\ slots s <= Z.max (2 ^ Z.of_nat k) (4 * Z.of_nat n).
Proof.
  intros Hr. rewrite (reach_slots _ _ _ Hr). destruct (reach_inv _ _ _ Hr) as [_ _ Hcl _]. rewrite Hcl.
  rewrite Nat.add_succ_r, Nat2Z.inj_succ, Z.pow_succ_r by lia.
  destruct (gr_cap _ _ _ (reach_grown _ _ _ Hr)) as [->|(n & Hn & Hle)].
  - exists 0%nat. split; [exists h, [], []; rewrite app_nil_r; split; [done|split; [constructor|done]]|]. rewrite Nat.add_0_r. lia.
  - exists n. split; [done|]. assert (0 < 2 ^ Z.of_nat k) by (apply Z.pow_pos_nonneg; lia). lia.
Qed.

(** All growing together copies at most two items for each item that the deque held at its
    fullest... *)
Theorem C72_copying {V} (k : nat) (s : deque V) h c :
  reach_copying k s h c -> exists n, held h n /\ c <= 2 * Z.of_nat n.
Proof.
  intros Hc. pose proof (rc_reach _ _ _ _ Hc) as Hr. pose proof (rc_paid _ _ _ _ Hc) as Hp.
  destruct (reach_grown _ _ _ Hr) as [Hg Ho]. assert (0 < 2 ^ Z.of_nat k) by (apply Z.pow_pos_nonneg; lia).
  assert (Hx : (exists v b t r, d_own s = OPushPub v b t r) \/ paid k s = 2 ^ Z.of_nat (k + d_cur s) - 2 ^ Z.of_nat k).
  { unfold paid. destruct (d_own s); eauto 10. }
  destruct Hx as [(v & b & t & r & E)|E].
  - rewrite E in Ho. destruct Ho as (n & Hn & Hle). exists n. split; [done|]. unfold paid in Hp. rewrite E in Hp.
    rewrite Nat.add_succ_r, Nat2Z.inj_succ, Z.pow_succ_r in Hp by lia. lia.
  - rewrite E in Hp. destruct Hg as [E0|(n & Hn & Hle)].
    + exists 0%nat. split; [exists h, [], []; rewrite app_nil_r; split; [done|split; [constructor|done]]|].
      rewrite E0, Nat.add_0_r in Hp. lia.
    + exists n. split; [done|]. lia.
Qed.

Lemma pushed_app {V} (h1 h2 : list (dev V)) : pushed (h1 ++ h2) = pushed h1 ++ pushed h2.
Proof. induction h1 as [|e h1 IH]; [done|]. destruct e as [|w [v| |] []|]; cbn; by rewrite ?IH. Qed.

Lemma held_pushed {V} (h : list (dev V)) n : held h n -> (n <= length (pushed h))%nat.
Proof.
  intros (h1 & h2 & q & -> & Hq & <-). rewrite pushed_app, app_length. etrans; [|apply Nat.le_add_l]. clear h1.
  induction Hq as [|w op r h q q' _ IH Hop| |]; cbn; try done; try lia.
  destruct Hop; cbn in *; rewrite ?app_length in *; cbn in *; lia.
Qed.

(** ... so at most two for each completed push. *)
Theorem C72_amortised {V} (k : nat) (s : deque V) h c :
  reach_copying k s h c -> c <= 2 * Z.of_nat (length (pushed h)).
Proof. intros (n & Hn%held_pushed & Hle)%C72_copying. lia. Qed.

(** Every execution has its cost. *)
Theorem C72_copying_defined {V} (k : nat) (s : deque V) h : reach k s h <-> exists c, reach_copying k s h c.
Proof.
  split; [|intros (c & Hc); by eapply rc_reach].
  induction 1 as [|s h l s' tr Hr (c & IH) E]; [exists 0; constructor|]. exists (c + copied l s). by eapply rc_step.
Qed.

(** ** Concrete executions *)

(** A push that grows the buffer (capacity 1, one item in it). *)
Definition full_run : option (deque nat * list (dev nat)) := drun (own (Some 10%nat) 6 ++ own (Some 20%nat) 1) (init 1) [].
Definition full_h : list (dev nat) := match full_run with Some (_, h) => h | None => [] end.
Definition full_s : deque nat := match full_run with Some (s, _) => s | None => init 1 end.
Lemma full_reach : reach 0 full_s full_h.
Proof.
  pose proof (drun_reach 0 (own (Some 10%nat) 6 ++ own (Some 20%nat) 1) (init 1) [] (reach_init 0)) as H.
  unfold full_s, full_h, full_run. destruct (drun _ (init 1) []) as [[s h]|] eqn:E; [done|].
  exfalso. revert E. vm_compute. done.
Qed.

Lemma drun_exec {V} (ls : list (dlab V)) s h : match drun ls s h with
  | Some (s', h') => exists tr, exec s ls s' tr /\ h' = rev tr ++ h | None => True end.
Proof.
  revert s h. induction ls as [|l ls IH]; intros s h; cbn; [exists []; split; [constructor|done]|].
  destruct (dstep_of l s) as [s1 tr1|] eqn:E; [|done]. specialize (IH s1 (rev tr1 ++ h)). cbn in IH.
  destruct (drun ls s1 (rev tr1 ++ h)) as [(s2 & h2)|]; [|done]. destruct IH as (tr2 & He & ->).
  exists (tr1 ++ tr2). split; [by econstructor|]. by rewrite rev_app_distr, <- app_assoc.
Qed.

Definition returns (e : dev nat) : bool := match e with ERet None _ => true | _ => false end.
Definition run_returns (ls : list (dlab nat)) : bool :=
  match drun ls full_s [] with Some (_, h) => existsb returns h | None => true end.
Lemma no_return ls : run_returns ls = false -> exists s' tr, exec full_s ls s' tr /\ forall x, ERet None x ∉ tr.
Proof.
  unfold run_returns. pose proof (drun_exec ls full_s []) as H. destruct (drun ls full_s []) as [(s' & h)|]; [|done].
  destruct H as (tr & He & ->). intros Hf. exists s', tr. split; [done|]. intros x Hx.
  assert (existsb returns (rev tr ++ []) = true); [|congruence]. apply existsb_exists. exists (ERet None x). split; [|done].
  rewrite app_nil_r. apply in_rev. rewrite rev_involutive. by apply elem_of_list_In.
Qed.

(** The bound of push is attained: five steps are not enough. *)
Example C72_wait_free_nonvacuous :
  reach 0 full_s full_h /\ in_phase None full_h (Called (DPush 20%nat)) /\
  steps_by None (own None 6 ++ [DThief 3; DThief 4]) = bound (DPush 20%nat) /\
  (exists s' tr, exec full_s (own None 6 ++ [DThief 3; DThief 4]) s' tr) /\
  exists s' tr, exec full_s (own None 5 ++ [DThief 3; DThief 4]) s' tr /\ forall x, ERet None x ∉ tr.
Proof.
  split; [apply full_reach|]. split; [|split; [|split]].
  - assert (full_h = [ECall None (DPush 20%nat); ERet None RUnit; ELin None (DPush 10%nat) RUnit; ECall None (DPush 10%nat)]) as -> by (vm_compute; reflexivity).
    repeat econstructor.
  - vm_compute; reflexivity.
  - destruct (C72_never_blocked 0 full_s full_h (own None 6 ++ [DThief 3; DThief 4]) full_reach) as (s' & tr & H & _). eauto.
  - apply no_return. vm_compute; reflexivity.
Qed.

(** The execution of C19: three slots for at most two items; one item was copied. *)
Example C72_space_nonvacuous :
  reach 0 demo_s demo_h /\ slots demo_s = 3 /\ length (d_bufs demo_s) = 2%nat.
Proof. split; [apply demo_reach|]. split; vm_compute; reflexivity. Qed.

Fixpoint cost_run {V} (ls : list (dlab V)) (s : deque V) : option Z :=
  match ls with
  | [] => Some 0
  | l :: ls' => match dstep_of l s with Next s' _ => option_map (Z.add (copied l s)) (cost_run ls' s') | Undef => None end
  end.
Lemma cost_run_reach {V} k ls : forall (s : deque V) h c n s' h', reach_copying k s h c ->
  cost_run ls s = Some n -> drun ls s h = Some (s', h') -> reach_copying k s' h' (c + n).
Proof.
  induction ls as [|l ls IH]; intros s h c n s' h' Hr En Ed; cbn in En, Ed.
  - injection En as <-. injection Ed as <- <-. by rewrite Z.add_0_r.
  - destruct (dstep_of l s) as [s1 tr1|] eqn:E; [|done]. destruct (cost_run ls s1) as [m|] eqn:Em; [|done].
    cbn in En. injection En as <-. rewrite Z.add_assoc. eapply IH; [by eapply rc_step|done|done].
Qed.
Example C72_copying_nonvacuous : reach_copying 0 demo_s demo_h 1 /\ length (pushed demo_h) = 2%nat.
Proof.
  split; [|vm_compute; reflexivity]. change 1 with (0 + 1).
  assert (H1 : cost_run demo_labels (init 1) = Some 1) by (vm_compute; reflexivity).
  unfold demo_s, demo_h, demo. destruct (drun demo_labels (init 1) []) as [[s h]|] eqn:E; [|exfalso; revert E; vm_compute; done].
  eapply cost_run_reach; [apply (rc_init 0)|exact H1|exact E].
Qed.

Print Assumptions C72_wait_free.
Print Assumptions C72_never_blocked.
Print Assumptions C72_space.
Print Assumptions C72_copying.
Print Assumptions C72_amortised.
Print Assumptions C72_copying_defined.
