(** * Proofs about for_each, map, fold and scan in the logic of AlgoLogic. *)

From stdpp Require Import prelude list.
From Coq Require Import ZArith Lia.
From Verif Require Import AlgoModel AlgoLogic AlgoSpec.
Local Open Scope Z_scope.
Global Arguments Z.add : simpl never.
Global Arguments Z.sub : simpl never.
Global Arguments Z.mul : simpl never.
Global Arguments Z.quot : simpl never.

Definition rng (a b : Z) : Z -> Prop := fun l => a <= l < b.
Definition nowhere : Z -> Prop := fun _ => False.

Lemma half x : 2 <= x -> 1 <= x ÷ 2 /\ x ÷ 2 < x.
Proof. intros H. Z.to_euclidean_division_equations. lia. Qed.

Ltac fin := unfold fp, rng, nowhere, agree in *; intros; try tauto; try lia.

Section Proofs.
Context {A : Type}.
Notation mem := (Z -> A).

Lemma upd_eq l v (m : mem) : upd l v m l = v. Proof. unfold upd. by rewrite decide_True. Qed.
Lemma upd_ne l l' v (m : mem) : l' <> l -> upd l v m l' = m l'. Proof. intros. unfold upd. by rewrite decide_False. Qed.

(** ** for_each *)

Section ForEach.
Context (X : Prop) (E : nat -> Prop) (thr : bool) (fn : A -> A) (HX : thr = true -> X).

Definition fe_post (m : mem) (head tail : Z) : res A -> mem -> Prop := fun _ m' => forall l, head <= l < tail -> m' l = fn (m l).

Lemma fe_post_local (W : Z -> Prop) m head tail : (forall l, head <= l < tail -> W l) -> local W (fe_post m head tail).
Proof. intros HW r m1 m2 Ha H l Hl. rewrite <- (Ha l) by auto. by apply H. Qed.

Lemma fe_loop_ok fuel : forall head tail m,
  head <= tail -> tail - head < Z.of_nat fuel ->
  wp X E (rng head tail) nowhere (fe_loop thr fn fuel head tail) (fe_post m head tail) m.
Proof using HX.
  induction fuel as [|fuel IH]; intros head tail m Hle Hf; [lia|]. simpl. case_decide as Heq.
  - intros l Hl. lia.
  - simpl. split; [fin|]. split; [done|]. split; [fin|].
    eapply wp_use; [apply (IH (head + 1) tail); lia|fin|fin|].
    intros r m' Hm' HQ l Hl. destruct (decide (l = head)) as [->|Hne].
    + rewrite Hm' by fin. apply upd_eq.
    + rewrite HQ by lia. by rewrite upd_ne by lia.
Qed.

Lemma for_each_ok fuel : forall head tail n m,
  0 < n -> head <= tail -> tail - head < Z.of_nat fuel ->
  wp X E (rng head tail) nowhere (for_each thr fn fuel head tail n) (fe_post m head tail) m.
Proof using HX.
  induction fuel as [|fuel IH]; intros head tail n m Hn Hle Hf; [lia|]. simpl for_each.
  rewrite decide_True by done. rewrite decide_True by lia. case_decide as H0.
  { intros l Hl. lia. }
  case_decide as Hlen.
  { apply (fe_loop_ok (S fuel)); lia. }
  pose proof (half (tail - head) ltac:(lia)) as Hh. set (mid := head + (tail - head) ÷ 2) in *.
  simpl. exists (rng head mid), nowhere, (rng mid tail), nowhere, (fe_post m head mid), (fe_post m mid tail).
  split_and!; try (fin; fail); try (apply fe_post_local; fin; fail).
  - apply IH; lia.
  - apply IH; lia.
  - intros r1 r2 m' Hm' H1 H2 l Hl. destruct (decide (l < mid)); [apply H1|apply H2]; lia.
Qed.

Lemma for_each1_ok fuel : forall head tail m,
  head <= tail -> tail - head < Z.of_nat fuel ->
  wp X E (rng head tail) nowhere (for_each1 thr fn fuel head tail) (fe_post m head tail) m.
Proof using HX.
  induction fuel as [|fuel IH]; intros head tail m Hle Hf; [lia|]. simpl for_each1.
  rewrite decide_True by lia. case_decide as H0.
  { intros l Hl. lia. }
  case_decide as Hlen.
  { simpl. split; [fin|]. split; [done|]. split; [fin|]. intros l Hl. replace l with head by lia. apply upd_eq. }
  pose proof (half (tail - head) ltac:(lia)) as Hh. set (mid := head + (tail - head) ÷ 2) in *.
  simpl. exists (rng head mid), nowhere, (rng mid tail), nowhere, (fe_post m head mid), (fe_post m mid tail).
  split_and!; try (fin; fail); try (apply fe_post_local; fin; fail).
  - apply IH; lia.
  - apply IH; lia.
  - intros r1 r2 m' Hm' H1 H2 l Hl. destruct (decide (l < mid)); [apply H1|apply H2]; lia.
Qed.
End ForEach.

(** ** map *)

Section Map.
Context (X : Prop) (E : nat -> Prop) (thr : bool) (fn : A -> A) (HX : thr = true -> X).

(** The output is the input range, or disjoint from it. *)
Definition apart (head tail out : Z) : Prop := out = head \/ out + (tail - head) <= head \/ tail <= out.

Definition map_post (m : mem) (head tail out : Z) : res A -> mem -> Prop :=
  fun _ m' => forall i, 0 <= i < tail - head -> m' (out + i) = fn (m (head + i)).

Lemma map_post_local (W : Z -> Prop) m head tail out :
  (forall l, out <= l < out + (tail - head) -> W l) -> local W (map_post m head tail out).
Proof. intros HW r m1 m2 Ha H i Hi. rewrite <- (Ha (out + i)) by (apply HW; lia). by apply H. Qed.

Lemma map_loop_ok fuel : forall head tail out m,
  head <= tail -> tail - head < Z.of_nat fuel -> apart head tail out ->
  wp X E (rng out (out + (tail - head))) (rng head tail) (map_loop thr fn fuel head tail out) (map_post m head tail out) m.
Proof using HX.
  induction fuel as [|fuel IH]; intros head tail out m Hle Hf Hap; [lia|]. simpl. case_decide as Heq.
  - intros i Hi. lia.
  - simpl. split; [fin|]. split; [done|]. split; [fin|].
    eapply wp_use; [apply (IH (head + 1) tail (out + 1)); [lia|lia|unfold apart in *; lia]|fin|fin|].
    intros r m' Hm' HQ i Hi. destruct (decide (i = 0)) as [->|Hne].
    + rewrite Hm' by fin. rewrite Z.add_0_r, upd_eq. by rewrite Z.add_0_r.
    + specialize (HQ (i - 1) ltac:(lia)). replace (out + 1 + (i - 1)) with (out + i) in HQ by lia.
      replace (head + 1 + (i - 1)) with (head + i) in HQ by lia. rewrite HQ. f_equal.
      apply upd_ne. unfold apart in Hap. lia.
Qed.

Lemma map_par (p1 p2 : prog A) head mid tail out m :
  head < mid < tail -> apart head tail out ->
  wp X E (rng out (out + (mid - head))) (rng head mid) p1 (map_post m head mid out) m ->
  wp X E (rng (out + (mid - head)) (out + (tail - head))) (rng mid tail) p2 (map_post m mid tail (out + (mid - head))) m ->
  wp X E (rng out (out + (tail - head))) (rng head tail) (Par p1 p2 (fun _ _ => Ret RUnit)) (map_post m head tail out) m.
Proof.
  intros Hm Hap H1 H2. simpl.
  eexists _, _, _, _, _, _. split; [|split; [exact H1|split; [exact H2|]]].
  - unfold apart in Hap. split_and!; try (fin; fail); apply map_post_local; fin.
  - intros r1 r2 m' Hm' Q1 Q2 i Hi. destruct (decide (i < mid - head)); [apply Q1; lia|].
    specialize (Q2 (i - (mid - head)) ltac:(lia)).
    replace (out + (mid - head) + (i - (mid - head))) with (out + i) in Q2 by lia.
    by replace (mid + (i - (mid - head))) with (head + i) in Q2 by lia.
Qed.

Lemma map_ok fuel : forall head tail out n m,
  0 < n -> head <= tail -> tail - head < Z.of_nat fuel -> apart head tail out ->
  wp X E (rng out (out + (tail - head))) (rng head tail) (map thr fn fuel head tail out n) (map_post m head tail out) m.
Proof using HX.
  induction fuel as [|fuel IH]; intros head tail out n m Hn Hle Hf Hap; [lia|]. simpl map.
  rewrite decide_True by done. rewrite decide_True by lia. case_decide as H0.
  { intros i Hi. lia. }
  case_decide as Hlen.
  { apply (map_loop_ok (S fuel)); [lia|lia|done]. }
  pose proof (half (tail - head) ltac:(lia)) as Hh. unfold apart in Hap.
  set (d := (tail - head) ÷ 2) in *. apply (map_par _ _ head (head + d) tail out); [lia|done| |].
  - apply IH; [lia|lia|lia|unfold apart; lia].
  - replace (head + d - head) with d by lia.
    replace (out + (tail - head)) with (out + d + (tail - (head + d))) by lia.
    apply IH; [lia|lia|lia|unfold apart; lia].
Qed.

Lemma map1_ok fuel : forall head tail out m,
  head <= tail -> tail - head < Z.of_nat fuel -> apart head tail out ->
  wp X E (rng out (out + (tail - head))) (rng head tail) (map1 thr fn fuel head tail out) (map_post m head tail out) m.
Proof using HX.
  induction fuel as [|fuel IH]; intros head tail out m Hle Hf Hap; [lia|]. simpl map1.
  rewrite decide_True by lia. case_decide as H0.
  { intros i Hi. lia. }
  case_decide as Hlen.
  { simpl. split; [fin|]. split; [done|]. split; [fin|]. intros i Hi. replace i with 0 by lia. rewrite !Z.add_0_r. apply upd_eq. }
  pose proof (half (tail - head) ltac:(lia)) as Hh. unfold apart in Hap.
  set (d := (tail - head) ÷ 2) in *. apply (map_par _ _ head (head + d) tail out); [lia|done| |].
  - apply IH; [lia|lia|unfold apart; lia].
  - replace (head + d - head) with d by lia.
    replace (out + (tail - head)) with (out + d + (tail - (head + d))) by lia.
    apply IH; [lia|lia|unfold apart; lia].
Qed.
End Map.

(** ** Folds *)

Section Sum.
Context (bop : A -> A -> A) (assoc : forall a b c, bop a (bop b c) = bop (bop a b) c) (P : Z -> A).

(** P a . P (a+1) . ... . P (b-1) *)
Definition ssum (a b : Z) : A := fold_left bop (P <$> seqZ (a + 1) (b - a - 1)) (P a).

Lemma ssum_one a : ssum a (a + 1) = P a.
Proof. unfold ssum. by replace (a + 1 - a - 1) with 0 by lia. Qed.

Lemma ssum_snoc a b : a < b -> ssum a (b + 1) = bop (ssum a b) (P b).
Proof.
  intros H. unfold ssum. replace (b + 1 - a - 1) with ((b - a - 1) + 1) by lia.
  rewrite seqZ_app by lia. rewrite fmap_app, fold_left_app. simpl.
  by replace (a + 1 + (b - a - 1)) with b by lia.
Qed.

Lemma ssum_app a b c : a < b < c -> ssum a c = bop (ssum a b) (ssum b c).
Proof using assoc.
  intros H. assert (exists k, c = b + 1 + Z.of_nat k) as [k ->] by (exists (Z.to_nat (c - b - 1)); lia).
  induction k as [|k IH].
  - rewrite Z.add_0_r, ssum_one. apply ssum_snoc. lia.
  - replace (b + 1 + Z.of_nat (S k)) with (b + 1 + Z.of_nat k + 1) by lia.
    rewrite !(ssum_snoc _ (b + 1 + Z.of_nat k)) by lia. rewrite IH by lia. by rewrite assoc.
Qed.
End Sum.

Section Fold.
Context (X : Prop) (E : nat -> Prop) (thr async : bool) (bop : A -> A -> A) (proj : A -> A).
Context (HX : thr = true -> X) (HA : async = true -> thr = false).
Context (assoc : forall a b c, bop a (bop b c) = bop (bop a b) c).

Lemma wp_apply W R acc x k Q m :
  wp X E W R (k (bop acc x)) Q m -> wp X E W R (apply_bop thr async bop acc x k) Q m.
Proof using HX HA. intros H. unfold apply_bop. destruct async; simpl; auto. Qed.

Lemma fold_loop_ok fuel : forall a i b m,
  a < i <= b -> b - i < Z.of_nat fuel ->
  wp X E nowhere (rng i b) (fold_loop thr async bop proj fuel i b (ssum bop (fun l => proj (m l)) a i))
     (fun r _ => r = RAcc (ssum bop (fun l => proj (m l)) a b)) m.
Proof using HX HA.
  induction fuel as [|fuel IH]; intros a i b m Hi Hf; [lia|]. simpl. case_decide as Heq.
  - by subst.
  - simpl. split; [fin|]. split; [done|]. apply wp_apply.
    rewrite <- (ssum_snoc bop (fun l => proj (m l)) a i) by lia.
    eapply wp_use; [apply (IH a (i + 1) b); lia|fin|fin|done].
Qed.

Definition fold_post (m : mem) (a b : Z) : res A -> mem -> Prop := fun r _ => r = RAcc (ssum bop (fun l => proj (m l)) a b).

Lemma fold_par (p1 p2 : prog A) a mid b m :
  a < mid < b ->
  wp X E nowhere (rng a mid) p1 (fold_post m a mid) m -> wp X E nowhere (rng mid b) p2 (fold_post m mid b) m ->
  wp X E nowhere (rng a b) (Par p1 p2 (fold_combine thr bop)) (fold_post m a b) m.
Proof using HX assoc.
  intros Hm H1 H2. simpl. eexists _, _, _, _, _, _. split; [|split; [exact H1|split; [exact H2|]]].
  - split_and!; try (fin; fail); intros r m1 m2 _ H; done.
  - intros r1 r2 m' _ -> ->. simpl. split; [done|]. unfold fold_post. f_equal. symmetry. by apply ssum_app.
Qed.

Lemma fold_ok fuel : forall a b n m,
  1 < n -> a < b -> b - a < Z.of_nat fuel ->
  wp X E nowhere (rng a b) (fold thr async bop proj fuel a b n) (fold_post m a b) m.
Proof using HX HA assoc.
  induction fuel as [|fuel IH]; intros a b n m Hn Hab Hf; [lia|]. simpl fold.
  rewrite decide_True by done. rewrite decide_True by lia. case_decide as Hlen.
  { simpl. split; [fin|]. split; [done|].
    rewrite <- (ssum_one bop (fun l => proj (m l)) a).
    eapply wp_use; [apply (fold_loop_ok (S fuel) a (a + 1) b); lia|fin|fin|done]. }
  pose proof (half (b - a) ltac:(lia)) as Hh. rewrite decide_True by lia.
  apply (fold_par _ _ a (a + (b - a) ÷ 2) b); [lia| |]; apply IH; lia.
Qed.

Lemma fold1_ok fuel : forall a b m,
  a < b -> b - a < Z.of_nat fuel ->
  wp X E nowhere (rng a b) (fold1 thr bop proj fuel a b) (fold_post m a b) m.
Proof using HX assoc.
  induction fuel as [|fuel IH]; intros a b m Hab Hf; [lia|]. simpl fold1.
  rewrite decide_True by lia. case_decide as Hlen.
  { simpl. split; [fin|]. split; [done|]. unfold fold_post. replace b with (a + 1) by lia. by rewrite ssum_one. }
  pose proof (half (b - a) ltac:(lia)) as Hh. rewrite decide_True by lia.
  apply (fold_par _ _ a (a + (b - a) ÷ 2) b); [lia| |]; apply IH; lia.
Qed.
End Fold.
End Proofs.
