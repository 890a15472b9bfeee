(** * A logic for fork-join programs: disjoint footprints, sound for interleaving. *)

From stdpp Require Import prelude.
From Coq Require Import ZArith Lia.
From Verif Require Import AlgoModel.
Local Open Scope Z_scope.

Section Logic.
Context {A : Type}.
Notation mem := (Z -> A).
Implicit Types (p : prog A) (m : mem) (W R : Z -> Prop) (Q : res A -> mem -> Prop).

Definition agree (S : Z -> Prop) m m' : Prop := forall l, S l -> m l = m' l.
Definition fp W R : Z -> Prop := fun l => W l \/ R l.
Definition local (S : Z -> Prop) Q : Prop := forall r m m', agree S m m' -> Q r m -> Q r m'.

(** [X]: exceptions are tolerated here; [E]: those that were thrown. *)
Fixpoint wp (X : Prop) (E : nat -> Prop) W R p Q m : Prop :=
  match p with
  | Ret r => Q r m
  | Throw e => X /\ E e
  | Undef | OutOfFuel => False
  | Read l k => fp W R l /\ wp X E W R (k (m l)) Q m
  | Write l v k => W l /\ wp X E W R k Q (upd l v m)
  | User t k => (t = true -> X) /\ wp X E W R k Q m
  | UserA t k => t = false /\ wp X E W R k Q m
  | Bind p s => wp X E W R p (fun r m' => wp X E W R (s r) Q m') m
  | Sync p s => wp False E W R p (fun r m' => wp X E W R (s r) Q m') m
  | Par p1 p2 k =>
    exists W1 R1 W2 R2 Q1 Q2,
      ((forall l, W1 l -> W l) /\ (forall l, W2 l -> W l) /\
       (forall l, R1 l -> fp W R l) /\ (forall l, R2 l -> fp W R l) /\
       (forall l, W1 l -> ~ fp W2 R2 l) /\ (forall l, W2 l -> ~ fp W1 R1 l) /\
       local (fp W1 R1) Q1 /\ local (fp W2 R2) Q2) /\
      wp X E W1 R1 p1 Q1 m /\ wp X E W2 R2 p2 Q2 m /\
      (forall r1 r2 m', (forall l, fp W R l -> ~ W1 l -> ~ W2 l -> m' l = m l) ->
         Q1 r1 m' -> Q2 r2 m' -> wp X E W R (k r1 r2) Q m')
  | Fork p1 s p2 k =>
    wp False E W R p1 (fun r m' => wp X E W R (s r) Q m') m /\
    exists W1 R1 W2 R2 Q1 Q2,
      ((forall l, W1 l -> W l) /\ (forall l, W2 l -> W l) /\
       (forall l, R1 l -> fp W R l) /\ (forall l, R2 l -> fp W R l) /\
       (forall l, W1 l -> ~ fp W2 R2 l) /\ (forall l, W2 l -> ~ fp W1 R1 l) /\
       local (fp W1 R1) Q1 /\ local (fp W2 R2) Q2) /\
      wp X E W1 R1 p1 Q1 m /\ wp X E W2 R2 p2 Q2 m /\
      (forall r1 r2 m', (forall l, fp W R l -> ~ W1 l -> ~ W2 l -> m' l = m l) ->
         Q1 r1 m' -> Q2 r2 m' -> wp X E W R (k r1 r2) Q m')
  end.

(** Consequence, and what is not written stays. *)
Lemma wp_frame p : forall (X X' : Prop) (E E' : nat -> Prop) W R W' R' Q Q' m m0,
  (X -> X') -> (forall e, E e -> E' e) -> (forall l, W l -> W' l) -> (forall l, R l -> fp W' R' l) ->
  (forall l, fp W' R' l -> ~ W l -> m l = m0 l) ->
  (forall r m', (forall l, fp W' R' l -> ~ W l -> m' l = m0 l) -> Q r m' -> Q' r m') ->
  wp X E W R p Q m -> wp X' E' W' R' p Q' m.
Proof.
  induction p as [r|e| | |l k IH|l v k IH|t k IH|t k IH|p IHp s IHs|p1 IH1 p2 IH2 k IHk|p1 IH1 s IHs p2 IH2 k IHk|p IHp s IHs];
    intros X X' E E' W R W' R' Q Q' m m0 HX HE HW HR Hm HQ Hwp; simpl in *.
  - by apply HQ.
  - naive_solver.
  - done.
  - done.
  - destruct Hwp as [Hl Hwp]. split; [destruct Hl; [left; auto|auto]|]. by eapply IH.
  - destruct Hwp as [Hl Hwp]. split; [auto|]. eapply IH; [done|done|done|done| |done|exact Hwp].
    intros l' Hf Hw. unfold upd. case_decide; [subst; done|]. by apply Hm.
  - destruct Hwp as [Hl Hwp]. split; [auto|]. by eapply IH.
  - destruct Hwp as [Hl Hwp]. split; [auto|]. by eapply IH.
  - refine (IHp _ _ E E' W R W' R' _ _ m m0 _ HE HW HR Hm _ Hwp); [done|].
    intros r m' Hm' Hwp'. eapply (IHs r X X' E E' W R W' R' Q Q' m' m0); done.
  - destruct Hwp as (W1 & R1 & W2 & R2 & Q1 & Q2 & (H1 & H2 & H3 & H4 & H5 & H6 & H7 & H8) & Hp1 & Hp2 & Hk).
    assert (forall l, fp W R l -> fp W' R' l) as Hfp by (intros l [?|?]; [left; auto|auto]).
    exists W1, R1, W2, R2, Q1, Q2. split_and!; auto.
    + eapply (IH1 X X' E E' W1 R1 W1 R1 Q1 Q1 m m); try done. by right.
    + eapply (IH2 X X' E E' W2 R2 W2 R2 Q2 Q2 m m); try done. by right.
    + intros r1 r2 m' Hm' HQ1 HQ2. apply (IHk r1 r2 X X' E E' W R W' R' Q Q' m' m0); [done|done|done|done| |done|apply Hk; [|exact HQ1|exact HQ2]].
      * intros l Hf Hw. rewrite Hm'; [by apply Hm|done|naive_solver|naive_solver].
      * intros l Hf Hn1 Hn2. by apply Hm'; auto.
  - destruct Hwp as [Hs (W1 & R1 & W2 & R2 & Q1 & Q2 & (H1 & H2 & H3 & H4 & H5 & H6 & H7 & H8) & Hp1 & Hp2 & Hk)].
    assert (forall l, fp W R l -> fp W' R' l) as Hfp by (intros l [?|?]; [left; auto|auto]).
    split.
    { refine (IH1 _ _ E E' W R W' R' _ _ m m0 _ HE HW HR Hm _ Hs); [done|].
      intros r m' Hm' Hwp'. eapply (IHs r X X' E E' W R W' R' Q Q' m' m0); done. }
    exists W1, R1, W2, R2, Q1, Q2. split_and!; auto.
    + eapply (IH1 X X' E E' W1 R1 W1 R1 Q1 Q1 m m); try done. by right.
    + eapply (IH2 X X' E E' W2 R2 W2 R2 Q2 Q2 m m); try done. by right.
    + intros r1 r2 m' Hm' HQ1 HQ2. apply (IHk r1 r2 X X' E E' W R W' R' Q Q' m' m0); [done|done|done|done| |done|apply Hk; [|exact HQ1|exact HQ2]].
      * intros l Hf Hw. rewrite Hm'; [by apply Hm|done|naive_solver|naive_solver].
      * intros l Hf Hn1 Hn2. by apply Hm'; auto.
  - refine (IHp _ _ E E' W R W' R' _ _ m m0 _ HE HW HR Hm _ Hwp); [done|].
    intros r m' Hm' Hwp'. eapply (IHs r X X' E E' W R W' R' Q Q' m' m0); done.
Qed.

(** The rule used in the proofs: use a smaller footprint. *)
Lemma wp_use (X : Prop) E W R W' R' p Q Q' m :
  wp X E W R p Q m -> (forall l, W l -> W' l) -> (forall l, R l -> fp W' R' l) ->
  (forall r m', (forall l, fp W' R' l -> ~ W l -> m' l = m l) -> Q r m' -> Q' r m') ->
  wp X E W' R' p Q' m.
Proof. intros H HW HR HQ. eapply (wp_frame p X X E E W R W' R' Q Q' m m); try done. Qed.

Lemma wp_mono (X : Prop) (E E' : nat -> Prop) W R p Q Q' m :
  (forall e, E e -> E' e) -> (forall r m', Q r m' -> Q' r m') -> wp X E W R p Q m -> wp X E' W R p Q' m.
Proof. intros HE HQ H. eapply (wp_frame p X X E E' W R W R Q Q' m m); try done; [by right|auto]. Qed.

(** Only the footprint matters. *)
Lemma wp_agree p : forall (X : Prop) (E : nat -> Prop) W R Q Q' m m',
  agree (fp W R) m m' ->
  (forall r m m', agree (fp W R) m m' -> Q r m -> Q' r m') ->
  wp X E W R p Q m -> wp X E W R p Q' m'.
Proof.
  induction p as [r|e| | |l k IH|l v k IH|t k IH|t k IH|p IHp s IHs|p1 IH1 p2 IH2 k IHk|p1 IH1 s IHs p2 IH2 k IHk|p IHp s IHs];
    intros X E W R Q Q' m m' Ha HQ Hwp; simpl in *; try done.
  - by eapply HQ.
  - destruct Hwp as [Hl Hwp]. split; [done|]. rewrite <- (Ha l Hl). by eapply IH.
  - destruct Hwp as [Hl Hwp]. split; [done|]. eapply IH; [|done|exact Hwp].
    intros l' Hl'. unfold upd. case_decide; [done|]. by apply Ha.
  - destruct Hwp as [Hl Hwp]. split; [done|]. by eapply IH.
  - destruct Hwp as [Hl Hwp]. split; [done|]. by eapply IH.
  - eapply IHp; [exact Ha| |exact Hwp]. intros r m1 m1' Ha1 Hwp1. by eapply IHs.
  - destruct Hwp as (W1 & R1 & W2 & R2 & Q1 & Q2 & (H1 & H2 & H3 & H4 & H5 & H6 & H7 & H8) & Hp1 & Hp2 & Hk).
    exists W1, R1, W2, R2, Q1, Q2. split_and!; auto.
    + eapply IH1; [|exact H7|exact Hp1]. intros l [Hl|Hl]; apply Ha; [left; auto|auto].
    + eapply IH2; [|exact H8|exact Hp2]. intros l [Hl|Hl]; apply Ha; [left; auto|auto].
    + intros r1 r2 m1 Hm1 HQ1 HQ2.
      eapply (IHk r1 r2 X E W R Q Q' m1 m1); [done|done|]. apply Hk; auto. intros l Hf Hn1 Hn2.
      rewrite (Ha l Hf). by apply Hm1.
  - destruct Hwp as [Hs (W1 & R1 & W2 & R2 & Q1 & Q2 & (H1 & H2 & H3 & H4 & H5 & H6 & H7 & H8) & Hp1 & Hp2 & Hk)].
    split.
    { eapply IH1; [exact Ha| |exact Hs]. intros r m1 m1' Ha1 Hwp1. by eapply IHs. }
    exists W1, R1, W2, R2, Q1, Q2. split_and!; auto.
    + eapply IH1; [|exact H7|exact Hp1]. intros l [Hl|Hl]; apply Ha; [left; auto|auto].
    + eapply IH2; [|exact H8|exact Hp2]. intros l [Hl|Hl]; apply Ha; [left; auto|auto].
    + intros r1 r2 m1 Hm1 HQ1 HQ2.
      eapply (IHk r1 r2 X E W R Q Q' m1 m1); [done|done|]. apply Hk; auto. intros l Hf Hn1 Hn2.
      rewrite (Ha l Hf). by apply Hm1.
  - eapply IHp; [exact Ha| |exact Hwp]. intros r m1 m1' Ha1 Hwp1. by eapply IHs.
Qed.

(** ** Soundness *)

Definition plus (E : nat -> Prop) (o : option nat) : nat -> Prop := fun e => E e \/ o = Some e.

Lemma wp_step p m o p' m' : step p m o p' m' -> forall (X : Prop) E W R Q,
  wp X E W R p Q m -> wp X (plus E o) W R p' Q m' /\ (forall l, ~ W l -> m' l = m l).
Proof.
  assert (forall X E o W R p Q m, wp X E W R p Q m -> wp X (plus E o) W R p Q m) as HM.
  { intros. eapply wp_mono; [|done|exact H]. by left. }
  induction 1; intros X E W R Q Hwp; simpl in Hwp.
  - split; [|done]. apply HM. apply Hwp.
  - split; [apply HM; apply Hwp|]. intros l' Hl'. unfold upd. case_decide; [subst; naive_solver|done].
  - split; [|done]. apply HM. apply Hwp.
  - split; [|done]. simpl. destruct Hwp as [Hx _]. split; [auto|by right].
  - split; [|done]. apply HM. apply Hwp.
  - by destruct Hwp.
  - destruct (IHstep _ _ _ _ _ Hwp) as [IH1 IH2]. split; [|done]. simpl.
    eapply wp_mono; [|intros r m1 H1; apply HM; exact H1|exact IH1]. done.
  - split; [|done]. by apply HM.
  - split; [|done]. apply (HM X E None W R (Throw e) Q m). done.
  - destruct Hwp as (W1 & R1 & W2 & R2 & Q1 & Q2 & (H1 & H2 & H3 & H4 & H5 & H6 & H7 & H8) & Hp1 & Hp2 & Hk).
    destruct (IHstep _ _ _ _ _ Hp1) as [IH1 IH2]. split; [|intros l Hl; apply IH2; auto].
    simpl. exists W1, R1, W2, R2, Q1, Q2. split_and!; auto.
    + apply HM. eapply wp_agree; [|exact H8|exact Hp2]. intros l Hl. symmetry. apply IH2. intros Hw. by apply (H5 l).
    + intros r1 r2 m1 Hm1 HQ1 HQ2. apply HM. apply Hk; auto. intros l Hf Hn1 Hn2. rewrite Hm1 by done. by apply IH2.
  - destruct Hwp as (W1 & R1 & W2 & R2 & Q1 & Q2 & (H1 & H2 & H3 & H4 & H5 & H6 & H7 & H8) & Hp1 & Hp2 & Hk).
    destruct (IHstep _ _ _ _ _ Hp2) as [IH1 IH2]. split; [|intros l Hl; apply IH2; auto].
    simpl. exists W1, R1, W2, R2, Q1, Q2. split_and!; auto.
    + apply HM. eapply wp_agree; [|exact H7|exact Hp1]. intros l Hl. symmetry. apply IH2. intros Hw. by apply (H6 l).
    + intros r1 r2 m1 Hm1 HQ1 HQ2. apply HM. apply Hk; auto. intros l Hf Hn1 Hn2. rewrite Hm1 by done. by apply IH2.
  - split; [|done]. apply HM. destruct Hwp as (W1 & R1 & W2 & R2 & Q1 & Q2 & _ & Hp1 & Hp2 & Hk). by apply Hk.
  - split; [|done]. destruct Hwp as (W1 & R1 & W2 & R2 & Q1 & Q2 & _ & Hp1 & Hp2 & Hk). apply (HM X E None W R (Throw e) Q m). done.
  - split; [|done]. destruct Hwp as (W1 & R1 & W2 & R2 & Q1 & Q2 & _ & Hp1 & Hp2 & Hk). apply (HM X E None W R (Throw e) Q m). done.
  - split; [|done]. destruct Hwp as (W1 & R1 & W2 & R2 & Q1 & Q2 & _ & Hp1 & Hp2 & Hk). apply (HM X E None W R (Throw e1) Q m). done.
  - split; [|done]. destruct Hwp as (W1 & R1 & W2 & R2 & Q1 & Q2 & _ & Hp1 & Hp2 & Hk). apply (HM X E None W R (Throw e2) Q m). done.
  - split; [|done]. apply (HM X E None W R (Sync p1 s) Q m). apply Hwp.
  - split; [|done]. apply (HM X E None W R (Par p1 p2 k) Q m). apply Hwp.
  - destruct (IHstep _ _ _ _ _ Hwp) as [IH1 IH2]. split; [|done]. simpl.
    eapply wp_mono; [|intros r m1 H1; apply HM; exact H1|exact IH1]. done.
  - split; [|done]. by apply HM.
  - by destruct Hwp.
Qed.

Lemma wp_next p : forall (X : Prop) E W R Q m l w, wp X E W R p Q m -> (l, w) ∈ next p -> if w : bool then W l else fp W R l.
Proof.
  induction p as [r|e| | |l k IH|l v k IH|t k IH|t k IH|p IHp s IHs|p1 IH1 p2 IH2 k IHk|p1 IH1 s IHs p2 IH2 k IHk|p IHp s IHs];
    intros X E W R Q m l' w Hwp Hin; simpl in *; try (by apply elem_of_nil in Hin).
  - apply elem_of_list_singleton in Hin as [= -> ->]. by destruct Hwp.
  - apply elem_of_list_singleton in Hin as [= -> ->]. by destruct Hwp.
  - by eapply IHp.
  - destruct Hwp as (W1 & R1 & W2 & R2 & Q1 & Q2 & (H1 & H2 & H3 & H4 & H5 & H6 & H7 & H8) & Hp1 & Hp2 & Hk).
    apply elem_of_app in Hin as [Hin|Hin].
    + specialize (IH1 _ _ _ _ _ _ _ _ Hp1 Hin). destruct w; [auto|]. destruct IH1; [left; auto|auto].
    + specialize (IH2 _ _ _ _ _ _ _ _ Hp2 Hin). destruct w; [auto|]. destruct IH2; [left; auto|auto].
  - by eapply IHp.
Qed.

Lemma wp_no_race p : forall (X : Prop) E W R Q m, wp X E W R p Q m -> ~ race p.
Proof.
  induction p as [r|e| | |l k IH|l v k IH|t k IH|t k IH|p IHp s IHs|p1 IH1 p2 IH2 k IHk|p1 IH1 s IHs p2 IH2 k IHk|p IHp s IHs];
    intros X E W R Q m Hwp; simpl in *; try (by intros ?); [by eapply IHp| |by eapply IHp].
  destruct Hwp as (W1 & R1 & W2 & R2 & Q1 & Q2 & (H1 & H2 & H3 & H4 & H5 & H6 & H7 & H8) & Hp1 & Hp2 & Hk).
  intros [Hr|[Hr|(l & w1 & w2 & Hn1 & Hn2 & Hw)]].
  - by eapply IH1.
  - by eapply IH2.
  - pose proof (wp_next _ _ _ _ _ _ _ _ _ Hp1 Hn1) as F1. pose proof (wp_next _ _ _ _ _ _ _ _ _ Hp2 Hn2) as F2.
    destruct Hw as [->| ->].
    + apply (H5 l F1). destruct w2; [by left|done].
    + apply (H6 l F2). destruct w1; [by left|done].
Qed.

Lemma wp_not_bad p : forall (X : Prop) E W R Q m, wp X E W R p Q m -> ~ bad p.
Proof.
  induction p as [r|e| | |l k IH|l v k IH|t k IH|t k IH|p IHp s IHs|p1 IH1 p2 IH2 k IHk|p1 IH1 s IHs p2 IH2 k IHk|p IHp s IHs];
    intros X E W R Q m Hwp; simpl in *; try (by intros ?); [by eapply IHp| |by eapply IHp].
  destruct Hwp as (W1 & R1 & W2 & R2 & Q1 & Q2 & _ & Hp1 & Hp2 & _).
  intros [?|?]; [by eapply IH1|by eapply IH2].
Qed.

Lemma wp_steps p m tr p' m' : steps p m tr p' m' -> forall (X : Prop) E W R Q,
  wp X E W R p Q m -> wp X (fun e => E e \/ e ∈ tr) W R p' Q m' /\ (forall l, ~ W l -> m' l = m l).
Proof.
  induction 1 as [|p m o p1 m1 tr p2 m2 Hs Hss IH]; intros X E W R Q Hwp.
  - split; [|done]. eapply wp_mono; [|done|exact Hwp]. by left.
  - destruct (wp_step _ _ _ _ _ Hs _ _ _ _ _ Hwp) as [H1 H2].
    destruct (IH _ _ _ _ _ H1) as [H3 H4]. split.
    + eapply wp_mono; [|done|exact H3]. intros e [[?|?]|?]; [by left|right|right].
      * destruct o; [|done]. simplify_eq. set_solver.
      * destruct o; set_solver.
    + intros l Hl. rewrite H4 by done. by apply H2.
Qed.

(** Every program that is neither finished nor undefined can go on. *)
Lemma progress p m : ~ bad p -> (exists r, p = Ret r) \/ (exists e, p = Throw e) \/ exists o p' m', step p m o p' m'.
Proof.
  induction p as [r|e| | |l k IH|l v k IH|t k IH|t k IH|p IHp s IHs|p1 IH1 p2 IH2 k IHk|p1 IH1 s IHs p2 IH2 k IHk|p IHp s IHs];
    intros Hb; simpl in *; eauto; try done.
  - right; right. eexists _, _, _. apply step_read.
  - right; right. eexists _, _, _. apply step_write.
  - right; right. eexists _, _, _. apply step_user.
  - right; right. eexists _, _, _. apply step_usera.
  - right; right. destruct (IHp Hb) as [[r ->]|[[e ->]|(o & p' & m' & Hs)]]; eexists _, _, _.
    + apply step_bind_ret.
    + apply step_bind_throw.
    + by apply step_bind.
  - right; right.
    destruct IH1 as [[r ->]|[[e ->]|(o & p' & m' & Hs)]]; [naive_solver| | |eexists _, _, _; by apply step_par_l];
      (destruct IH2 as [[r2 ->]|[[e2 ->]|(o & p' & m' & Hs)]]; [naive_solver| | |eexists _, _, _; by apply step_par_r]);
      eexists _, _, _.
    + apply step_join.
    + apply step_join_r.
    + apply step_join_l.
    + apply step_join_lr1.
  - right; right. eexists _, _, _. apply step_fork_async.
  - right; right. destruct (IHp Hb) as [[r ->]|[[e ->]|(o & p' & m' & Hs)]]; eexists _, _, _.
    + apply step_sync_ret.
    + apply step_sync_throw.
    + by apply step_sync.
Qed.

(** Every execution is finite. *)
Definition pstep p' p : Prop := exists m o m', step p m o p' m'.

Lemma acc_ret r : Acc pstep (Ret r). Proof. constructor. intros p' (m & o & m' & Hs). inversion Hs. Qed.
Lemma acc_throw e : Acc pstep (Throw e). Proof. constructor. intros p' (m & o & m' & Hs). inversion Hs. Qed.
Lemma acc_undef : Acc pstep Undef. Proof. constructor. intros p' (m & o & m' & Hs). inversion Hs. Qed.

Lemma acc_bind p s : Acc pstep p -> (forall r, Acc pstep (s r)) -> Acc pstep (Bind p s).
Proof.
  intros Hp Hs. induction Hp as [p _ IH]. constructor. intros p' (m & o & m' & Hst). inversion Hst; subst; auto using acc_throw.
  apply IH. eexists _, _, _. eassumption.
Qed.
Lemma acc_sync p s : Acc pstep p -> (forall r, Acc pstep (s r)) -> Acc pstep (Sync p s).
Proof.
  intros Hp Hs. induction Hp as [p _ IH]. constructor. intros p' (m & o & m' & Hst). inversion Hst; subst; auto using acc_undef.
  apply IH. eexists _, _, _. eassumption.
Qed.
Lemma acc_par p1 p2 k : Acc pstep p1 -> Acc pstep p2 -> (forall r1 r2, Acc pstep (k r1 r2)) -> Acc pstep (Par p1 p2 k).
Proof.
  intros Hp1. revert p2. induction Hp1 as [p1 _ IH1]. intros p2 Hp2 Hk. induction Hp2 as [p2 Hp2 IH2].
  constructor. intros p' (m & o & m' & Hst). inversion Hst; subst; auto using acc_throw.
  - apply IH1; [by eexists _, _, _| |done]. by constructor.
  - apply IH2. by eexists _, _, _.
Qed.

Theorem executions_finite p : Acc pstep p.
Proof.
  induction p as [r|e| | |l k IH|l v k IH|t k IH|t k IH|p IHp s IHs|p1 IH1 p2 IH2 k IHk|p1 IH1 s IHs p2 IH2 k IHk|p IHp s IHs];
    auto using acc_bind, acc_sync, acc_par;
    constructor; intros p' (m & o & m' & Hs); inversion Hs; subst; auto using acc_throw, acc_undef, acc_par, acc_sync.
Qed.

End Logic.
