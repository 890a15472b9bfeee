(** * Proofs about scan. *)

From stdpp Require Import prelude list.
From Coq Require Import ZArith Lia.
From Verif Require Import AlgoModel AlgoLogic AlgoSpec AlgoProofs.
Local Open Scope Z_scope.

Section Scan.
Context {A : Type}.
Notation mem := (Z -> A).
(** User code does not throw here: see Prop_Algo for what happens if it does. *)
Notation X := False (only parsing).
Context (E : nat -> Prop) (async : bool) (bop : A -> A -> A) (proj : A -> A).
Context (assoc : forall a b c, bop a (bop b c) = bop (bop a b) c).
(** The input starts at [h], the output at [o], both of length [len]; [m0] is the initial memory. *)
Context (h o len n : Z) (m0 : mem) (Hn : 1 <= n).
Context (Hap : o = h \/ o + len <= h \/ h + len <= o).

Ltac finr :=
  unfold fp, rng, nowhere, agree in *; intros; try match goal with |- ~ _ => intro end;
  repeat match goal with
    | H : _ \/ _ |- _ => tryif constr_eq H Hap then fail else destruct H
    | H : _ /\ _ |- _ => destruct H
    end;
  try discriminate; try lia; try (right; right; split; [done|lia]).

Notation S_ := (ssum bop (fun i => proj (m0 (h + i)))).

(** The inputs of [a, b) have not been overwritten. *)
Definition intact (m : mem) (a b : Z) : Prop := forall i, a <= i < b -> m (h + i) = m0 (h + i).

Definition tail_of (r : bool) (b : Z) : Z := if r then b - 1 else b.

(** The reduction tree that the rise sweep leaves in the output ([r]: there is a right sibling). *)
Inductive FT (m : mem) : bool -> Z -> Z -> Prop :=
| FT_leaf r a b : 0 < b - a <= n -> intact m a (tail_of r b) -> FT m r a b
| FT_node r a b mid :
    n < b - a -> mid = a + (b - a) ÷ 2 -> FT m true a mid -> m (o + (mid - 1)) = S_ a mid -> FT m r mid b -> FT m r a b.

(** The same when the prefix up to [e] has been scanned. *)
Inductive US (m : mem) : bool -> Z -> Z -> Z -> Prop :=
| US_lt r a b mid e : n < b - a -> mid = a + (b - a) ÷ 2 -> e < mid ->
    US m true a mid e -> m (o + (mid - 1)) = S_ 0 mid -> FT m r mid b -> US m r a b e
| US_eq r a b mid e : n < b - a -> mid = a + (b - a) ÷ 2 -> e = mid -> FT m r mid b -> US m r a b e
| US_gt r a b mid e : n < b - a -> mid = a + (b - a) ÷ 2 -> mid < e -> US m r mid b e -> US m r a b e.

Lemma FT_inv m r a b : FT m r a b ->
  (0 < b - a <= n /\ intact m a (tail_of r b)) \/
  (n < b - a /\ exists mid, mid = a + (b - a) ÷ 2 /\ FT m true a mid /\ m (o + (mid - 1)) = S_ a mid /\ FT m r mid b).
Proof. destruct 1; [by left|right]. split; [done|]. by exists mid. Qed.

Lemma US_inv m r a b e : US m r a b e -> n < b - a /\ exists mid, mid = a + (b - a) ÷ 2 /\
  ((e < mid /\ US m true a mid e /\ m (o + (mid - 1)) = S_ 0 mid /\ FT m r mid b) \/
   (e = mid /\ FT m r mid b) \/ (mid < e /\ US m r mid b e)).
Proof. destruct 1; (split; [done|]); exists mid; (split; [done|]); [left|right; left|right; right]; done. Qed.

Definition cells (r : bool) (a b l : Z) : Prop := rng (o + a) (o + tail_of r b) l \/ rng (h + a) (h + tail_of r b) l.

Lemma FT_agree m m' r a b : agree (cells r a b) m m' -> FT m r a b -> FT m' r a b.
Proof using Hn.
  intros Ha H. revert Ha. induction H as [r a b Hs Hi|r a b mid Hs Hmid H1 IH1 He H2 IH2]; intros Ha.
  - apply FT_leaf; [done|]. intros i Hi'. rewrite <- (Hi i Hi'). symmetry. apply Ha. right. unfold rng. lia.
  - pose proof (half (b - a) ltac:(lia)). unfold agree, cells, rng, tail_of in *.
    apply (FT_node m' r a b mid); [done|done|apply IH1| |apply IH2].
    + intros l Hl. apply Ha. destruct r; lia.
    + rewrite <- He. symmetry. apply Ha. destruct r; lia.
    + intros l Hl. apply Ha. destruct r; lia.
Qed.

Lemma US_agree m m' r a b e : agree (cells r a b) m m' -> US m r a b e -> US m' r a b e.
Proof using Hn.
  intros Ha H. revert Ha. induction H as [r a b mid e Hs Hmid He H1 IH1 Hc H2|r a b mid e Hs Hmid He H|r a b mid e Hs Hmid He H IH]; intros Ha;
    pose proof (half (b - a) ltac:(lia)).
  - apply (US_lt m' r a b mid e); [done|done|done|apply IH1| |eapply FT_agree; [|exact H2]]; unfold agree, cells, rng, tail_of in *.
    + intros l Hl. apply Ha. destruct r; lia.
    + rewrite <- Hc. symmetry. apply Ha. destruct r; lia.
    + intros l Hl. apply Ha. destruct r; lia.
  - apply (US_eq m' r a b mid e); [done|done|done|eapply FT_agree; [|exact H]]; unfold agree, cells, rng, tail_of in *.
    intros l Hl. apply Ha. destruct r; lia.
  - apply (US_gt m' r a b mid e); [done|done|done|apply IH]; unfold agree, cells, rng, tail_of in *.
    intros l Hl. apply Ha. destruct r; lia.
Qed.

Lemma wp_app W R acc x k Q m :
  wp X E W R (k (bop acc x)) Q m -> wp X E W R (apply_bop false async bop acc x k) Q m.
Proof. intros H. unfold apply_bop. destruct async; simpl; (split; [done|exact H]). Qed.

Definition scanned (m : mem) (a b : Z) : Prop := forall i, a <= i < b -> m (o + i) = S_ 0 (i + 1).

Lemma scan_loop_ok fuel : forall i last r m,
  0 < i <= last -> last <= len -> last - i < Z.of_nat fuel -> intact m i last ->
  wp X E (rng (o + i) (o + last)) (rng (h + i) (h + last))
     (scan_loop false async bop proj fuel (h + i) (h + last) (S_ 0 i) (o + i) r)
     (fun r' m' => r' = r /\ scanned m' i last) m.
Proof using Hap.
  induction fuel as [|fuel IH]; intros i last r m Hi Hlast Hf Hin; [lia|]. simpl. case_decide as Heq.
  - simpl. split; [done|]. intros j Hj. lia.
  - simpl. split; [fin|]. split; [done|]. apply wp_app. simpl. split; [fin|].
    rewrite (Hin i) by lia. rewrite <- (ssum_snoc bop (fun i => proj (m0 (h + i))) 0 i) by lia.
    replace (h + i + 1) with (h + (i + 1)) by lia. replace (o + i + 1) with (o + (i + 1)) by lia.
    eapply wp_use; [apply (IH (i + 1) last); [lia|lia|lia|]|fin|fin|].
    + intros j Hj. rewrite upd_ne by lia. apply Hin. lia.
    + intros r' m' Hm' [-> HQ]. split; [done|]. intros j Hj. destruct (decide (j = i)) as [->|Hne]; [|apply HQ; lia].
      rewrite Hm' by fin. apply upd_eq.
Qed.

Lemma rise_fold_loop_ok fuel : forall a i b m,
  a < i <= b -> b - i < Z.of_nat fuel -> intact m i b ->
  wp X E (rng (o + (b - 1)) (o + b)) (rng (h + i) (h + b))
     (rise_fold_loop false async bop proj fuel (h + i) (h + b) (S_ a i) (o + (b - 1)))
     (fun r' m' => m' (o + (b - 1)) = S_ a b) m.
Proof.
  induction fuel as [|fuel IH]; intros a i b m Hi Hf Hin; [lia|]. simpl. case_decide as Heq.
  - simpl. split; [fin|]. replace i with b by lia. apply upd_eq.
  - simpl. split; [fin|]. split; [done|]. apply wp_app. simpl.
    rewrite (Hin i) by lia. rewrite <- (ssum_snoc bop (fun i => proj (m0 (h + i))) a i) by lia.
    replace (h + i + 1) with (h + (i + 1)) by lia.
    eapply wp_use; [apply (IH a (i + 1) b); [lia|lia|]|fin|fin|done].
    intros j Hj. apply Hin. lia.
Qed.

(** ** The rise sweep *)

Definition has_right (iv : interval) : bool := match iv with ILhs | IMid => true | IAll | IRhs => false end.
Definition has_left (iv : interval) : bool := match iv with IRhs | IMid => true | IAll | ILhs => false end.

Definition rise_post (iv : interval) (op : op) (a b : Z) (r : res A) (m : mem) : Prop :=
  match op with
  | OpScan =>
    exists e, r = RPos (h + e) /\ a < e <= b /\ scanned m a e /\
      (has_right iv = true -> m (o + (b - 1)) = S_ 0 b) /\ (e < b -> US m (has_right iv) a b e)
  | OpFold => FT m (has_right iv) a b /\ (has_right iv = true -> m (o + (b - 1)) = S_ a b)
  end.

Definition rise_R (op : op) (a b : Z) (l : Z) : Prop :=
  rng (h + a) (h + b) l \/ (op = OpScan /\ 0 < a /\ l = o + (a - 1)).

Lemma rise_post_local iv op a b : a < b -> local (fp (rng (o + a) (o + b)) (rise_R op a b)) (rise_post iv op a b).
Proof using Hn.
  intros Hab r m m' Ha. assert (agree (cells (has_right iv) a b) m m') as Hc.
  { intros l Hl. apply Ha. unfold cells, fp, rise_R, rng, tail_of in *. destruct (has_right iv); lia. }
  destruct op; simpl.
  - intros (e & -> & He & Hs & Hr & Hu). exists e. split_and!; [done|lia|lia| | |].
    + intros i Hi. rewrite <- (Hs i Hi). symmetry. apply Ha. left. unfold rng. lia.
    + intros H. rewrite <- (Hr H). symmetry. apply Ha. left. unfold rng. lia.
    + intros H. eapply US_agree; [exact Hc|auto].
  - intros [H1 H2]. split; [by eapply FT_agree|]. intros H. rewrite <- (H2 H). symmetry. apply Ha. left. unfold rng. lia.
Qed.

(** The combination of the reductions of the two halves. *)
Lemma rise_combine_ok iv c a mid b r m (Q : res A -> mem -> Prop) :
  a < mid < b -> c < mid ->
  m (o + (mid - 1)) = S_ c mid -> (has_right iv = true -> m (o + (b - 1)) = S_ mid b) ->
  (forall m', (forall l, l <> o + (b - 1) -> m' l = m l) -> (has_right iv = true -> m' (o + (b - 1)) = S_ c b) ->
     (has_right iv = false -> m' = m) -> Q r m') ->
  forall R, wp X E (rng (o + a) (o + b)) R (rise_combine false async bop iv (o + a) (mid - a) (b - a) (Ret r)) Q m.
Proof using assoc.
  intros Hm Hc H1 H2 HQ R. destruct iv; simpl in *.
  1, 4: by apply HQ.
  all: replace (o + a + (mid - a) - 1) with (o + (mid - 1)) by lia; replace (o + a + (b - a) - 1) with (o + (b - 1)) by lia;
    (split; [fin|]); (split; [fin|]); apply wp_app; simpl; (split; [fin|]);
    apply HQ; [|intros _; rewrite upd_eq, H1, H2 by done; symmetry; apply ssum_app; [done|lia]|done].
  all: intros l Hl; by apply upd_ne.
Qed.

Lemma has_right_l iv : has_right (l_child_of iv) = true. Proof. by destruct iv. Qed.
Lemma has_right_r iv : has_right (r_child_of iv) = has_right iv. Proof. by destruct iv. Qed.
Lemma has_left_l iv : has_left (l_child_of iv) = has_left iv. Proof. by destruct iv. Qed.
Lemma has_left_r iv : has_left (r_child_of iv) = true. Proof. by destruct iv. Qed.

Lemma rise_ok fuel : forall iv op a b m,
  0 <= a < b -> b <= len -> b - a < Z.of_nat fuel -> intact m a b ->
  (op = OpScan -> if has_left iv then 0 < a /\ m (o + (a - 1)) = S_ 0 a else a = 0) ->
  (op = OpFold -> has_left iv = true) ->
  wp X E (rng (o + a) (o + b)) (rise_R op a b)
     (rise false async bop proj fuel iv op (h + a) (h + b) n (o + a)) (rise_post iv op a b) m.
Proof using assoc Hn Hap.
  induction fuel as [|fuel IH]; intros iv op a b m Hab Hb Hf Hin Hleft Hfold; [lia|].
  assert (o + a + (b - a) - 1 = o + (b - 1)) as Hlast by lia.
  cbn [rise]. replace (h + b - (h + a)) with (b - a) by lia. rewrite decide_True by lia.
  case_decide as Hlen.
  { (* a chunk *)
    assert (intact m a (tail_of (has_right iv) b)) as Hin'.
    { intros i Hi. apply Hin. unfold tail_of in Hi. destruct (has_right iv); lia. }
    destruct op.
    - specialize (Hleft eq_refl). destruct (has_left iv) eqn:Hl.
      + destruct Hleft as [Ha Hprev].
        assert (wp X E (rng (o + a) (o + b)) (rise_R OpScan a b)
          (Read (o + a - 1) (fun acc => scan_loop false async bop proj (S fuel) (h + a) (h + b) acc (o + a) (RPos (h + b))))
          (rise_post iv OpScan a b) m) as Hgoal.
        { cbn [wp]. split; [right; right; split; [done|lia]|]. replace (o + a - 1) with (o + (a - 1)) by lia. rewrite Hprev.
          eapply wp_use; [apply (scan_loop_ok (S fuel) a b); [lia|lia|lia|done]|fin|unfold fp, rise_R; finr|].
          intros r m' Hm' [-> HQ]. exists b. split_and!; [done|lia|lia|done| |lia].
          intros _. rewrite (HQ (b - 1)) by lia. f_equal. lia. }
        destruct iv; [done|done|exact Hgoal|exact Hgoal].
      + subst a.
        assert (wp X E (rng (o + 0) (o + b)) (rise_R OpScan 0 b)
          (project false proj (h + 0) (fun acc => Write (o + 0) acc
             (scan_loop false async bop proj (S fuel) (h + 0 + 1) (h + b) acc (o + 0 + 1) (RPos (h + b)))))
          (rise_post iv OpScan 0 b) m) as Hgoal.
        { unfold project. cbn [wp]. split; [unfold fp, rise_R; finr|]. split; [done|]. split; [fin|].
          rewrite (Hin 0) by lia. rewrite <- (ssum_one bop (fun i => proj (m0 (h + i))) 0).
          replace (h + 0 + 1) with (h + (0 + 1)) by lia. replace (o + 0 + 1) with (o + (0 + 1)) by lia.
          eapply wp_use; [apply (scan_loop_ok (S fuel) (0 + 1) b); [lia|lia|lia|]|fin|unfold fp, rise_R; finr|].
          { intros i Hi. rewrite upd_ne by lia. apply Hin. lia. }
          intros r m' Hm' [-> HQ].
          assert (scanned m' 0 b) as Hsc.
          { intros i Hi. destruct (decide (i = 0)) as [->|Hne]; [|apply HQ; lia].
            rewrite Hm' by fin. apply upd_eq. }
          exists b. split_and!; [done|lia|lia|done| |lia].
          intros _. rewrite (Hsc (b - 1)) by lia. f_equal. lia. }
        destruct iv; [exact Hgoal|exact Hgoal|done|done].
    - assert (FT m (has_right iv) a b) as HFT by (apply FT_leaf; [lia|done]).
      destruct iv; [by specialize (Hfold eq_refl)|by specialize (Hfold eq_refl)| |by split].
      unfold project. cbn [wp]. split; [unfold fp, rise_R; finr|]. split; [done|].
      rewrite (Hin a) by lia. rewrite <- (ssum_one bop (fun i => proj (m0 (h + i))) a).
      replace (h + a + 1) with (h + (a + 1)) by lia. rewrite Hlast.
      eapply wp_use; [apply (rise_fold_loop_ok (S fuel) a (a + 1) b); [lia|lia|]|fin|unfold fp, rise_R; finr|].
      { intros i Hi. apply Hin. lia. }
      intros r m' Hm' HQ. split; [|done]. simpl. eapply FT_agree; [|exact HFT].
      intros l Hl. symmetry. unfold cells, tail_of in Hl. simpl in Hl. apply Hm'.
      + unfold fp, rise_R, rng in *. lia.
      + unfold rng in *. lia. }
  (* two halves *)
  pose proof (half (b - a) ltac:(lia)) as Hh. set (d := (b - a) ÷ 2) in *.
  assert (exists mid, mid = a + d) as [mid Hmid] by eauto.
  replace (h + a + d) with (h + mid) by lia. replace (o + a + d) with (o + mid) by lia.
  replace d with (mid - a) by lia.
  assert (intact m a mid) as Hin1 by (intros i Hi; apply Hin; lia).
  assert (intact m mid b) as Hin2 by (intros i Hi; apply Hin; lia).
  destruct op.
  2: { (* a reduction *)
    specialize (Hfold eq_refl). cbn [wp].
    exists (rng (o + a) (o + mid)), (rise_R OpFold a mid), (rng (o + mid) (o + b)), (rise_R OpFold mid b),
      (rise_post (l_child_of iv) OpFold a mid), (rise_post (r_child_of iv) OpFold mid b).
    split; [split_and!; try (unfold rise_R; finr; fail); apply rise_post_local; lia|].
    split; [apply IH; [lia|lia|lia|done|done|intros _; by rewrite has_left_l]|].
    split; [apply IH; [lia|lia|lia|done|done|intros _; by rewrite has_left_r]|].
    intros r1 r2 m' Hm' [F1 V1] [F2 V2]. rewrite has_right_l in F1, V1. rewrite has_right_r in F2, V2.
    apply (rise_combine_ok iv a a mid b); [lia|lia|by apply V1|done|].
    intros m2 Hm2 Hr2 Heq. split; [|done]. apply (FT_node m2 _ a b mid); [lia|lia| | |].
    - eapply FT_agree; [|exact F1]. intros l Hl. symmetry. apply Hm2. unfold cells, tail_of, rng in Hl. lia.
    - rewrite Hm2 by lia. by apply V1.
    - destruct (has_right iv) eqn:Hr; [|by rewrite Heq].
      eapply FT_agree; [|exact F2]. intros l Hl. symmetry. apply Hm2. unfold cells, tail_of, rng in Hl. lia. }
  (* a scan *)
  clear Hfold. specialize (Hleft eq_refl).
  (* after the left scan and the right reduction *)
  assert (forall e R m1, a < e <= mid -> scanned m1 a e -> m1 (o + (mid - 1)) = S_ 0 mid ->
    (e < mid -> US m1 true a mid e) ->
    rise_post (r_child_of iv) OpFold mid b (@RUnit A) m1 ->
    wp X E (rng (o + a) (o + b)) R
      (rise_combine false async bop iv (o + a) (mid - a) (b - a) (Ret (RPos (h + e)))) (rise_post iv OpScan a b) m1) as Hcomb.
  { intros e R m1 He Hsc Hv HU [F2 V2]. rewrite has_right_r in F2, V2.
    apply (rise_combine_ok iv 0 a mid b); [lia|lia|done|done|].
    intros m2 Hm2 Hr2 Heq. exists e. split_and!; [done|lia|lia| |done|].
    - intros i Hi. rewrite Hm2 by lia. by apply Hsc.
    - intros _. assert (FT m2 (has_right iv) mid b) as F2'.
      { destruct (has_right iv) eqn:Hr; [|by rewrite Heq].
        eapply FT_agree; [|exact F2]. intros l Hl. symmetry. apply Hm2. unfold cells, tail_of, rng in Hl. lia. }
      destruct (decide (e = mid)) as [->|Hne].
      + apply (US_eq m2 _ a b mid); [lia|lia|done|done].
      + apply (US_lt m2 _ a b mid); [lia|lia|lia| |rewrite Hm2 by lia; done|done].
        eapply US_agree; [|apply HU; lia]. intros l Hl. symmetry. apply Hm2. unfold cells, tail_of, rng in Hl. lia. }
  assert (wp X E (rng (o + a) (o + mid)) (rise_R OpScan a mid)
     (rise false async bop proj fuel (l_child_of iv) OpScan (h + a) (h + mid) n (o + a)) (rise_post (l_child_of iv) OpScan a mid) m) as HL.
  { apply IH; [lia|lia|lia|done| |done]. intros _. rewrite has_left_l. done. }
  cbn [wp]. split.
  - (* the left child completes first *)
    eapply wp_use; [exact HL|fin|unfold rise_R; finr|].
    intros r m1 Hm1 (e & -> & He & Hsc & Hv & HU). rewrite has_right_l in Hv, HU. specialize (Hv eq_refl).
    assert (intact m1 mid b) as Hin3.
    { intros i Hi. rewrite Hm1; [by apply Hin2|unfold fp, rise_R, rng; lia|unfold rng; lia]. }
    case_decide as Hfull.
    + assert (e = mid) as -> by lia. cbn [wp].
      eapply wp_use; [apply (IH (r_child_of iv) OpScan mid b m1); [lia|lia|lia|done| |done]|fin| |].
      * intros _. rewrite has_left_r. split; [lia|done].
      * unfold rise_R; finr.
      * intros r m2 Hm2 (e & -> & He2 & Hsc2 & Hv2 & HU2). rewrite has_right_r in Hv2, HU2.
        simpl. exists e. split_and!; [done|lia|lia| |done|].
        -- intros i Hi. destruct (decide (i < mid)); [|apply Hsc2; lia].
           rewrite Hm2; [apply Hsc; lia|unfold fp, rng; lia|unfold rng; lia].
        -- intros Hlt. apply (US_gt m2 _ a b mid); [lia|lia|lia|auto].
    + cbn [wp].
      eapply wp_use; [apply (IH (r_child_of iv) OpFold mid b m1); [lia|lia|lia|done|done|intros _; apply has_left_r]|fin|unfold rise_R; finr|].
      intros r m2 Hm2 HP. apply Hcomb; [lia| | | |exact HP].
      * intros i Hi. rewrite Hm2; [by apply Hsc|unfold fp, rng; lia|unfold rng; lia].
      * rewrite Hm2; [done|unfold fp, rng; lia|unfold rng; lia].
      * intros Hlt. eapply US_agree; [|by apply HU]. intros l Hl. symmetry.
        unfold cells, tail_of, rng in Hl. apply Hm2; [unfold fp, rise_R, rng; lia|unfold rng; lia].
  - (* in parallel *)
    exists (rng (o + a) (o + mid)), (rise_R OpScan a mid), (rng (o + mid) (o + b)), (rise_R OpFold mid b),
      (rise_post (l_child_of iv) OpScan a mid), (rise_post (r_child_of iv) OpFold mid b).
    split; [split_and!; try (unfold rise_R; finr; fail); apply rise_post_local; lia|].
    split; [exact HL|].
    split; [apply IH; [lia|lia|lia|done|done|intros _; by rewrite has_left_r]|].
    intros r1 r2 m' Hm' (e & -> & He & Hsc & Hv & HU) HP. rewrite has_right_l in Hv, HU. specialize (Hv eq_refl).
    by apply Hcomb.
Qed.

(** ** The fall sweep *)

Definition fall_R (a b : Z) (l : Z) : Prop := rng (h + a) (h + b) l \/ l = o + (a - 1).
Definition fall_post (a b : Z) (_ : res A) (m : mem) : Prop := scanned m a b.

Lemma fall_post_local a b R : local (fp (rng (o + a) (o + b)) R) (fall_post a b).
Proof. intros r m m' Ha H i Hi. rewrite <- (H i Hi). symmetry. apply Ha. left. unfold rng. lia. Qed.

Lemma fall_impl_ok fuel : forall iv a b m,
  has_left iv = true -> 0 < a < b -> b <= len -> b - a < Z.of_nat fuel ->
  m (o + (a - 1)) = S_ 0 a -> FT m (has_right iv) a b ->
  wp X E (rng (o + a) (o + tail_of (has_right iv) b)) (fall_R a (tail_of (has_right iv) b))
     (fall_impl false async bop proj fuel iv (h + a) (h + b) n (o + a)) (fall_post a (tail_of (has_right iv) b)) m.
Proof using assoc Hn Hap.
  induction fuel as [|fuel IH]; intros iv a b m Hl Hab Hb Hf Hprev HFT; [lia|].
  cbn [fall_impl]. replace (h + b - (h + a)) with (b - a) by lia. rewrite decide_True by lia.
  replace (o + a - 1) with (o + (a - 1)) by lia. set (t := tail_of (has_right iv) b) in *.
  assert (b - 1 <= t <= b) as Ht by (unfold t, tail_of; destruct (has_right iv); lia).
  case_decide as Hlen.
  { replace (match iv with IRhs => h + b | _ => h + a + (b - a) - 1 end) with (h + t)
      by (unfold t, tail_of; destruct iv; simpl in *; try done; lia).
    cbn [wp]. split; [unfold fp, fall_R; fin|]. rewrite Hprev.
    apply FT_inv in HFT as [[_ H0]|[? _]]; [|lia]. fold t in H0.
    eapply wp_use; [apply (scan_loop_ok (S fuel) a t); [lia|lia|lia|done]|fin|unfold fp, fall_R; fin|].
    by intros r m' _ [_ HQ]. }
  pose proof (half (b - a) ltac:(lia)) as Hh. apply FT_inv in HFT as [[? _]|(Hs & mid & Hmid & F1 & Hv & F2)]; [lia|].
  set (d := (b - a) ÷ 2) in *.
  replace (h + a + d) with (h + mid) by lia. replace (o + a + d) with (o + mid) by lia.
  replace (o + mid - 1) with (o + (mid - 1)) by lia.
  cbn [wp]. split; [unfold fp, fall_R; fin|]. split; [unfold fp, fall_R; fin|]. apply wp_app. cbn [wp]. split; [fin|].
  rewrite Hprev, Hv. rewrite <- (ssum_app bop assoc (fun i => proj (m0 (h + i))) 0 a mid) by lia.
  set (m1 := upd (o + (mid - 1)) (S_ 0 mid) m).
  exists (rng (o + a) (o + (mid - 1))), (fall_R a (mid - 1)), (rng (o + mid) (o + t)), (fall_R mid t),
    (fall_post a (mid - 1)), (fall_post mid t).
  split; [split_and!; try (unfold fall_R; fin; fail); apply fall_post_local|].
  split.
  { pose proof (IH (l_child_of iv) a mid m1) as H1. rewrite has_right_l, has_left_l in H1.
    apply H1; [done|lia|lia|lia| |].
    - unfold m1. rewrite upd_ne by lia. done.
    - eapply FT_agree; [|exact F1]. intros l Hc. unfold m1. rewrite upd_ne; [done|]. unfold cells, tail_of, rng in Hc. lia. }
  split.
  { pose proof (IH (r_child_of iv) mid b m1) as H1. rewrite has_right_r, has_left_r in H1.
    apply H1; [done|lia|lia|lia| |].
    - unfold m1. apply upd_eq.
    - eapply FT_agree; [|exact F2]. intros l Hc. unfold m1. rewrite upd_ne; [done|]. unfold cells, rng in Hc. fold t in Hc. lia. }
  intros r1 r2 m' Hm' Q1 Q2 i Hi. destruct (decide (i < mid - 1)); [apply Q1; lia|]. destruct (decide (mid <= i)); [apply Q2; lia|].
  replace i with (mid - 1) by lia. rewrite Hm'; [|unfold fp, rng; lia|unfold rng; lia|unfold rng; lia].
  unfold m1. rewrite upd_eq. f_equal. lia.
Qed.

Lemma fall_ok fuel : forall iv a b e m,
  0 <= a < e -> e < b <= len -> b - a < Z.of_nat fuel ->
  m (o + (e - 1)) = S_ 0 e -> US m (has_right iv) a b e ->
  wp X E (rng (o + e) (o + tail_of (has_right iv) b)) (fall_R e (tail_of (has_right iv) b))
     (fall false async bop proj fuel iv (h + a) (h + b) n (o + a) (h + e)) (fall_post e (tail_of (has_right iv) b)) m.
Proof using assoc Hn Hap.
  induction fuel as [|fuel IH]; intros iv a b e m Hae Hb Hf Hprev HUS; [lia|].
  cbn [fall]. replace (h + b - (h + a)) with (b - a) by lia. rewrite decide_True by lia.
  set (t := tail_of (has_right iv) b) in *.
  assert (b - 1 <= t <= b) as Ht by (unfold t, tail_of; destruct (has_right iv); lia).
  apply US_inv in HUS as (Hs & mid & Hmid & HUS).
  pose proof (half (b - a) ltac:(lia)) as Hh. set (d := (b - a) ÷ 2) in *.
  replace (h + a + d) with (h + mid) by lia. replace (o + a + d) with (o + mid) by lia.
  destruct HUS as [(He & HU & Hv & F2)|[(He & F2)|(He & HU)]].
  - rewrite decide_True by lia. cbn [wp].
    exists (rng (o + e) (o + (mid - 1))), (fall_R e (mid - 1)), (rng (o + mid) (o + t)), (fall_R mid t),
      (fall_post e (mid - 1)), (fall_post mid t).
    split; [split_and!; try (unfold fall_R; fin; fail); apply fall_post_local|].
    split.
    { pose proof (IH (l_child_of iv) a mid e m) as H1. rewrite has_right_l in H1. apply H1; [lia|lia|lia|done|done]. }
    split.
    { pose proof (fall_impl_ok fuel (r_child_of iv) mid b m) as H1. rewrite has_right_r, has_left_r in H1.
      apply H1; [done|lia|lia|lia|done|done]. }
    intros r1 r2 m' Hm' Q1 Q2 i Hi. destruct (decide (i < mid - 1)); [apply Q1; lia|]. destruct (decide (mid <= i)); [apply Q2; lia|].
    replace i with (mid - 1) by lia. rewrite Hm'; [|unfold fp, fall_R, rng; lia|unfold rng; lia|unfold rng; lia].
    rewrite Hv. f_equal. lia.
  - rewrite decide_False by lia. rewrite decide_True by lia. subst e. cbn [wp].
    pose proof (fall_impl_ok fuel (r_child_of iv) mid b m) as H1. rewrite has_right_r, has_left_r in H1.
    apply H1; [done|lia|lia|lia|done|done].
  - rewrite decide_False by lia. rewrite decide_False by lia. cbn [wp].
    pose proof (IH (r_child_of iv) mid b e m) as H1. rewrite has_right_r in H1. apply H1; [lia|lia|lia|done|done].
Qed.

Lemma scan_ok fuel m :
  0 <= len -> len < Z.of_nat fuel -> m = m0 ->
  wp X E (rng o (o + len)) (rng h (h + len)) (scan false async bop proj fuel h (h + len) o n)
     (fun _ m' => scanned m' 0 len) m.
Proof using assoc Hn Hap.
  intros Hlen Hf ->. unfold scan. case_decide as H0.
  { simpl. intros i Hi. lia. }
  cbn [wp].
  pose proof (rise_ok fuel IAll OpScan 0 len m0 ltac:(lia) ltac:(lia) ltac:(lia) ltac:(done) ltac:(done) ltac:(done)) as HR.
  rewrite !Z.add_0_r in HR.
  eapply wp_use; [exact HR|fin|unfold rise_R; finr|].
  intros r m1 Hm1 (e & -> & He & Hsc & _ & HU). case_decide as Hne.
  - cbn [wp].
    pose proof (fall_ok fuel IAll 0 len e m1 ltac:(lia) ltac:(lia) ltac:(lia)) as HF. simpl in HF. rewrite !Z.add_0_r in HF.
    eapply wp_use; [apply HF|fin|unfold fall_R; fin|].
    + rewrite (Hsc (e - 1)) by lia. f_equal. lia.
    + apply HU. lia.
    + intros r m2 Hm2 HQ i Hi. destruct (decide (e <= i)); [apply HQ; lia|].
      rewrite Hm2; [apply Hsc; lia|unfold fp, rng; lia|unfold rng; lia].
  - simpl. replace len with e by lia. done.
Qed.
End Scan.
