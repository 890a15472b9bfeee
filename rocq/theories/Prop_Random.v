(** * C41, C42: the random number generator. *)

From Coq Require Import NArith List Lia.
From Verif Require Import RandomModel RandomSpec RandomProofs RandomPeriod.
Import ListNotations.
Local Open Scope N_scope.

(** ** C41: the jump functions *)
Theorem C41_jump m : is_state m -> jump m = after (2 ^ 128) m.
Proof.
  intros Hm. unfold jump. rewrite jump_impl_ok; [|exact Hm|repeat (apply Forall_cons; [reflexivity|]); apply Forall_nil].
  rewrite jump_poly. exact (act_sqs 128 m (K_all m Hm)).
Qed.
Theorem C41_long_jump m : is_state m -> long_jump m = after (2 ^ 192) m.
Proof.
  intros Hm. unfold long_jump. rewrite jump_impl_ok; [|exact Hm|repeat (apply Forall_cons; [reflexivity|]); apply Forall_nil].
  rewrite long_jump_poly. exact (act_sqs 192 m (K_all m Hm)).
Qed.

(** ** C42: the generator does not degenerate *)
Theorem C42_words m : is_state m -> is_state (fst (next m)) /\ snd (next m) < 2 ^ 64.
Proof. intros Hm. split; [apply T_state; exact Hm|apply w64_lt]. Qed.
Theorem C42_injective a b : is_state a -> is_state b -> fst (next a) = fst (next b) -> a = b.
Proof. apply T_inj. Qed.
Theorem C42_surjective b : is_state b -> exists a, is_state a /\ fst (next a) = b.
Proof. intros Hb. exists (prev b). split; [apply (lin_state _ lin_prev); exact Hb|apply T_prev; exact Hb]. Qed.
Theorem C42_nonzero m k : is_state m -> m <> zero -> after k m <> zero.
Proof.
  intros Hm Hz E. apply Hz. apply (after_inj k); [exact Hm|apply zero_state|]. rewrite E. symmetry.
  clear. induction k as [|k IH] using N.peano_ind; [reflexivity|]. unfold after in *. rewrite N.iter_succ, IH. reflexivity.
Qed.
(** Every state but zero comes back after exactly 2^256 - 1 calls: all these states
    form one cycle. *)
Theorem C42_period m : is_state m -> m <> zero ->
  after (2 ^ 256 - 1) m = m /\ forall k, 0 < k < 2 ^ 256 - 1 -> after k m <> m.
Proof. intros Hm Hz. split; [exact (after_period m Hm)|]. exact (after_exact m Hm Hz). Qed.

(** So from any state but zero every other one is reached. *)
Theorem C42_one_cycle m m' : is_state m -> m <> zero -> is_state m' -> m' <> zero ->
  exists k, k < 2 ^ 256 - 1 /\ after k m = m'.
Proof.
  intros Hm Hz Hm' Hz'. destruct (one_orbit m Hm Hz) as (a & Ha & <-). destruct (one_orbit m' Hm' Hz') as (b & Hb & <-).
  destruct (N.le_gt_cases a b) as [H|H].
  - exists (b - a). split; [unfold period in *; lia|]. rewrite <- after_add. f_equal. lia.
  - exists (b + period - a). split; [change (2 ^ 256 - 1) with period; lia|]. rewrite <- after_add. replace (b + period - a + a) with (b + period) by lia.
    rewrite after_add, (after_period e0 (proj1 e0_K)). reflexivity.
Qed.
Print Assumptions C42_one_cycle.

(** ** C41: subsequences made by jumping do not overlap *)
Lemma positions_differ m x y : is_state m -> m <> zero -> x < period -> y < period -> x <> y -> after x m <> after y m.
Proof.
  intros Hm Hz.
  assert (forall x y, x < y -> y < period -> after x m <> after y m) as H.
  { intros a b Hab Hb E. apply (after_exact m Hm Hz (b - a)); [lia|]. apply (after_inj a); [apply after_state; exact Hm|exact Hm|].
    rewrite <- after_add. replace (a + (b - a)) with b by lia. symmetry. exact E. }
  intros Hx Hy Hne. destruct (N.lt_trichotomy x y) as [Hl|[He|Hg]]; [apply H; assumption|contradiction|].
  intros E. apply (H y x); try assumption. symmetry. exact E.
Qed.
Lemma jumps k m : is_state m -> N.iter k jump m = after (k * 2 ^ 128) m.
Proof.
  intros Hm. induction k as [|k IH] using N.peano_ind; [reflexivity|]. rewrite N.iter_succ, IH, C41_jump by (apply after_state; exact Hm).
  rewrite <- after_add. f_equal. lia.
Qed.
Lemma long_jumps k m : is_state m -> N.iter k long_jump m = after (k * 2 ^ 192) m.
Proof.
  intros Hm. induction k as [|k IH] using N.peano_ind; [reflexivity|]. rewrite N.iter_succ, IH, C41_long_jump by (apply after_state; exact Hm).
  rewrite <- after_add. f_equal. lia.
Qed.

(** [k] long jumps, [j] jumps, [i] calls: different [(k, j, i)] in range give different
    states, whatever the (non-zero) seed; so the subsequences of length 2^128 that the
    2^64 * 2^64 pairs [(k, j)] start do not overlap.  (The very last element of the very
    last one is excluded: the period is 2^256 - 1, not 2^256.) *)
Theorem C41_subsequences_disjoint m k j i k' j' i' : is_state m -> m <> zero ->
  j < 2 ^ 64 -> i < 2 ^ 128 -> j' < 2 ^ 64 -> i' < 2 ^ 128 ->
  k * 2 ^ 192 + j * 2 ^ 128 + i < 2 ^ 256 - 1 -> k' * 2 ^ 192 + j' * 2 ^ 128 + i' < 2 ^ 256 - 1 ->
  (k, j, i) <> (k', j', i') ->
  after i (N.iter j jump (N.iter k long_jump m)) <> after i' (N.iter j' jump (N.iter k' long_jump m)).
Proof.
  intros Hm Hz Hj Hi Hj' Hi' Hp Hp' Hne.
  rewrite (long_jumps k m Hm), (long_jumps k' m Hm).
  rewrite (jumps j _ (after_state (k * 2 ^ 192) m Hm)), (jumps j' _ (after_state (k' * 2 ^ 192) m Hm)). rewrite <- !after_add.
  apply positions_differ; [exact Hm|exact Hz|unfold period; lia|unfold period; lia|].
  intros E. apply Hne. change (2 ^ 192) with (2 ^ 64 * 2 ^ 128) in *.
  destruct (N.div_mod_unique (2 ^ 128) (k * 2 ^ 64 + j) (k' * 2 ^ 64 + j') i i') as [E2 ->]; [exact Hi|exact Hi'|clear - E; generalize dependent (2 ^ 128); intros; lia|].
  destruct (N.div_mod_unique (2 ^ 64) k k' j j') as [-> ->]; [exact Hj|exact Hj'|clear - E2; generalize dependent (2 ^ 64); intros; lia|]. reflexivity.
Qed.

(** ** The default seed *)
Example default_seed_ok : is_state default_seed /\ default_seed <> zero.
Proof. split; [repeat split|discriminate]. Qed.
Example C41_jump_moves : jump default_seed <> default_seed /\ snd (next default_seed) <> 0.
Proof. split; vm_compute; discriminate. Qed.
(** Two subsequences. *)
Example C41_subsequences_instance :
  after 5 (N.iter 1 jump (N.iter 0 long_jump default_seed)) <> after 7 (N.iter 0 jump (N.iter 1 long_jump default_seed)).
Proof.
  destruct default_seed_ok as [H1 H2].
  exact (C41_subsequences_disjoint default_seed 0 1 5 1 0 7 H1 H2 eq_refl eq_refl eq_refl eq_refl eq_refl eq_refl ltac:(discriminate)).
Qed.

Print Assumptions C41_jump.
Print Assumptions C41_long_jump.
Print Assumptions C41_subsequences_disjoint.
Print Assumptions C42_words.
Print Assumptions C42_injective.
Print Assumptions C42_surjective.
Print Assumptions C42_nonzero.
Print Assumptions C42_period.
