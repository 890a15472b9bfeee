(** * Proofs about BStackModel. *)

From stdpp Require Import prelude gmap list.
From Coq Require Import NArith Lia.
From Verif Require Import PoolCommon BusyModel BDeepModel BDeepSpec BDeepProofs BStackModel BStackSpec.
From Verif Require RuntimeModel RuntimeSpec StackModel StackSpec FineModel FineSpec FineProofs2 DeepModel.
From Verif Require RStackModel FStackModel FStackSpec Prop_FStack.
From Verif Require FStackProofs BWholeModel BWholeInv BWholeSpec BusyProofs.

Section Proofs.
Context (n : nat) (unit : bool) (K k : nat) (af : bool).
Notation deep_step := (deep_step n unit K).
Notation sstep := (sstep n unit K).
Notation creach := (FStackSpec.creach n k af).

(** A step of the pool makes the step [fine_part] of the runtime and the deques. *)
Lemma part_step l x x' : deep_step l x = DNext x' ->
  match fine_part K l x with
  | Some fl => exists tr, FineModel.fstep fl (fn x) = FineModel.FNext (fn x') tr /\ hist x' = rev tr ++ hist x
  | None => fn x' = fn x /\ hist x' = hist x
  end.
Proof.
  assert (B : forall pl fl t, both n unit pl (FineModel.fstep fl (fn x)) t x = DNext x' ->
    exists tr, FineModel.fstep fl (fn x) = FineModel.FNext (fn x') tr /\ hist x' = rev tr ++ hist x).
  { intros pl fl t (p & trp & f & tr & _ & E & ->)%both_next. exists tr. by split. }
  assert (A : forall pl t, both n unit pl (FineModel.FNext (fn x) []) t x = DNext x' -> fn x' = fn x /\ hist x' = hist x).
  { intros pl t (p & trp & f & tr & _ & [= <- <-] & ->)%both_next. done. }
  destruct l as [w c v fail|d t| | |w]; unfold BDeepModel.deep_step, alone; cbn [fine_part]; intros Hs; [|by eapply B|by eapply A|by eapply A|by eapply B].
  destruct (decide (w < n)); [|done]. unfold thread, alone in Hs. unfold thread_part.
  destruct (FineModel.from (fn x) w) as [u|].
  - cbv zeta in Hs. destruct (match FineModel.fstep _ _ with FineModel.FNext _ _ => _ | _ => _ end); by eapply B.
  - destruct (pc (pool x) w); try (by eapply A).
    all: try (destruct (q (pool x) w); [by eapply A|by eapply B]).
    all: try (destruct (FineModel.looking w (fn x)); [by eapply A|by eapply B]).
    destruct (c && bool_decide (tries x w < K)); [by eapply B|by eapply A].
Qed.
Lemma part_allowed l x fl : legal n af l -> fine_part K l x = Some fl -> FineSpec.fallowed n af fl.
Proof.
  destruct l as [w c v fail|d t| | |w]; cbn [fine_part legal]; intros Hl; [|by intros [= <-]|done|done|by intros [= <-]].
  unfold thread_part. destruct (FineModel.from (fn x) w); [by intros [= <-]|].
  destruct (pc (pool x) w); try done; repeat case_match; try done; intros [= <-]; done.
Qed.

(** What a step does. *)
Lemma sstep_inv b x m x' m' : sstep b x m = SNext x' m' ->
  (deep_step (s_lab b) x = DNext x' /\ RStackModel.execs (stack_part K b x) m = RStackModel.MOk m') \/
  (x' = x /\ exists x1, deep_step (s_lab b) x = DNext x1 /\ RStackModel.execs (stack_part K b x) m = RStackModel.MThr m').
Proof.
  unfold BStackModel.sstep. destruct (deep_step (s_lab b) x) as [x1| |]; [|done..].
  destruct (RStackModel.execs (stack_part K b x) m); try done; intros [= <- <-]; [by left|right; split; eauto].
Qed.

Lemma step_creach b x m x' m' : creach (fn x) m (hist x) -> slegal n af b -> sstep b x m = SNext x' m' -> creach (fn x') m' (hist x').
Proof.
  intros Hr (Hl & Hsz) Hs. pose proof (sstep_inv _ _ _ _ _ Hs) as Hi.
  assert (exists x1, deep_step (s_lab b) x = DNext x1) as (x1 & H1) by (destruct Hi as [(?&_)|(_&?&?&_)]; eauto).
  pose proof (part_step _ _ _ H1) as Hp. unfold stack_part in Hi. destruct (fine_part K (s_lab b) x) as [fl|] eqn:Ef.
  - destruct Hp as (tr & Hf & Hh). pose proof (part_allowed _ _ _ Hl Ef) as Ha.
    destruct Hi as [(Hd & He)|(-> & x2 & _ & He)].
    + rewrite H1 in Hd. injection Hd as ->. rewrite Hh.
      refine (FStackSpec.cr_step _ _ _ (with_answers b fl) _ _ _ _ _ _ Hr Ha Hsz _).
      unfold FStackModel.cstep. cbn [FStackModel.c_lab with_answers]. by rewrite Hf, He.
    + refine (FStackSpec.cr_step _ _ _ (with_answers b fl) _ _ _ _ _ [] Hr Ha Hsz _).
      unfold FStackModel.cstep. cbn [FStackModel.c_lab with_answers]. by rewrite Hf, He.
  - cbn [RStackModel.execs] in Hi. destruct Hi as [(Hd & [= <-])|(_ & x2 & _ & He)]; [|done].
    rewrite H1 in Hd. injection Hd as ->. by destruct Hp as (-> & ->).
Qed.

Lemma sreach_creach doc x m : sreach n unit K k af doc x m -> creach (fn x) m (hist x).
Proof.
  induction 1 as [m (os & H1 & H2)|x m b x' m' _ IH Hl _ Hs]; [by eapply FStackSpec.cr_boot|]. by eapply step_creach.
Qed.
Lemma sreach_reach doc x m : sreach n unit K k af doc x m -> reach n unit K k af x.
Proof.
  induction 1 as [|x m b x' m' _ IH Hl _ Hs]; [constructor|]. destruct Hl as (Hl & _).
  destruct (sstep_inv _ _ _ _ _ Hs) as [(Hd & _)|(-> & _)]; [by econstructor|done].
Qed.
Lemma sreach_dreach x m : sreach n unit K k af true x m -> dreach n unit K k af x.
Proof.
  induction 1 as [|x m b x' m' _ IH Hl Hd Hs]; [constructor|]. destruct Hl as (Hl & _).
  destruct (sstep_inv _ _ _ _ _ Hs) as [(Hx & _)|(-> & _)]; [|done]. econstructor; [exact IH|exact Hl|by apply Hd|exact Hx].
Qed.

(** The stack code of a step throws only in schedule(). *)
Lemma throws_client b x m x1 m' : creach (fn x) m (hist x) -> slegal n af b ->
  deep_step (s_lab b) x = DNext x1 -> RStackModel.execs (stack_part K b x) m = RStackModel.MThr m' ->
  exists d t, s_lab b = YClient d t.
Proof.
  intros Hr (Hl & Hsz) H1 He. pose proof (part_step _ _ _ H1) as Hp. unfold stack_part in He.
  destruct (fine_part K (s_lab b) x) as [fl|] eqn:Ef; [|done]. destruct Hp as (tr & Hf & Hh).
  pose proof (part_allowed _ _ _ Hl Ef) as Ha.
  assert (fl' : exists d t, fl = FineModel.FSpawn d t).
  { revert He. unfold FStackModel.cacts. cbn [FStackModel.c_lab with_answers].
    destruct fl as [i fail|i|i v|d t|i]; [|done|done|by eauto|].
    - destruct (FineModel.from (fn x) i); [done|]. destruct (FStackModel.commit i fail (fn x)) as [[[fl p] l]|]; [|done].
      intros (d & t & X)%FStackProofs.acts_spawn. discriminate X.
    - intros (d & t & X)%FStackProofs.acts_spawn. discriminate X. }
  destruct fl' as (d & t & ->). destruct (s_lab b) as [w c v fail|d' t'| | |w]; cbn [fine_part] in Ef; try done; [|eauto].
  unfold thread_part in Ef. repeat case_match; done.
Qed.

(** ** When the pool has been destroyed *)

(** All workers are idle. *)
Lemma ended_idle x : reach n unit K k af x -> dt (pool x) = true ->
  forall w wk, RuntimeModel.s_workers (FineModel.rt (fn x)) !! w = Some wk -> RuntimeModel.w_pc wk = RuntimeModel.PIdle.
Proof.
  intros (y & D & _)%reach_sim Hd w wk Hw. pose proof (ds_winv _ _ _ _ _ _ D) as I.
  destruct (ds_sim _ _ _ _ _ _ D) as (Q & H & M). pose proof (FineProofs2.sim_agrees _ _ _ _ _ _ _ _ M) as Ha.
  destruct (Forall2_lookup_l _ _ _ _ _ (FineSpec.a_workers _ _ Ha) Hw) as (wk' & Hw' & E & _). rewrite E.
  assert (Hn : w < n) by (rewrite <- (BWholeInv.wi_len _ _ _ _ I); by eapply lookup_lt_Some).
  apply (BWholeInv.wi_agree _ _ _ _ I w wk' Hw'). destruct (BWholeInv.wi_pool _ _ _ _ I) as [h Hh].
  rewrite (ds_pool _ _ _ _ _ _ D) in Hd.
  rewrite (BusyProofs.bi_dt _ _ _ _ (BusyProofs.reach_binv n unit _ _ Hh) Hd w Hn). unfold BWholeInv.busy. tauto.
Qed.

(** ** Infinite executions *)
Section run.
Context (sg : nat -> deep) (mm : nat -> RStackModel.mem) (l : nat -> option slab).
Context (HW : sfair n unit K k af sg mm l).

(** The same without memory: a call of schedule() that throws is no step. *)
Definition bare (i : nat) : option dlab :=
  match l i with
  | Some b => match RStackModel.execs (stack_part K b (sg i)) (mm i) with RStackModel.MThr _ => None | _ => Some (s_lab b) end
  | None => None
  end.

Lemma run_sreach i : sreach n unit K k af true (sg i) (mm i).
Proof.
  destruct (sf_run _ _ _ _ _ _ _ _ HW) as [(R0 & Rm) R1]. induction i as [|i IH]; [rewrite R0; by constructor|].
  specialize (R1 i). rewrite Nat.add_1_r in R1. destruct (l i) as [b|]; [|by destruct R1 as (-> & ->)].
  destruct R1 as (H1 & H2 & H3). by eapply (sreach_step _ _ _ _ _ true _ _ b).
Qed.
Lemma bare_not_client i d : makes (l i) d -> (forall a t, d <> YClient a t) -> bare i = Some d.
Proof.
  intros (b & Hb & <-) Hn. unfold bare. rewrite Hb.
  pose proof (sr_step _ _ _ _ _ _ _ _ (sf_run _ _ _ _ _ _ _ _ HW) i) as Hs. rewrite Hb in Hs. destruct Hs as (Hl & _ & Hs).
  pose proof (sstep_inv _ _ _ _ _ Hs) as Hi. destruct (RStackModel.execs (stack_part K b (sg i)) (mm i)) eqn:E; try done.
  destruct Hi as [(_ & Hi)|(_ & x1 & Hd & _)]; [done|].
  destruct (throws_client b _ _ _ _ (sreach_creach _ _ _ (run_sreach i)) Hl Hd E) as (a & t & X). by destruct (Hn a t).
Qed.

Lemma bare_fair : dfair n unit K k af sg bare.
Proof.
  destruct HW as [[(R0 & Rm) R1] Hw Hj]. split.
  - split; [done|]. intros i. specialize (R1 i). unfold bare. destruct (l i) as [b|]; [|by destruct R1].
    destruct R1 as ((Hl & _) & Hd & Hs). pose proof (sstep_inv _ _ _ _ _ Hs) as Hi.
    destruct (RStackModel.execs (stack_part K b (sg i)) (mm i)) eqn:E;
      (destruct Hi as [(H1 & H2)|(H1 & x1 & H2 & H3)]; [try done|try done]); done.
  - intros w i Hlt. destruct (Hw w i Hlt) as (j & Hij & [(c & v & fail & H)|H]); exists j; (split; [done|]); [left|by right].
    exists c, v, fail. by apply bare_not_client.
  - intros i. destruct (Hj i) as (j & Hij & [H|H]); exists j; (split; [done|]); [left|by right]. by apply bare_not_client.
Qed.
Lemma bare_submissions N : ssubmissions_end N l -> submissions_end N bare.
Proof.
  intros HS i d t Hi Hb. unfold bare in Hb. destruct (l i) as [b|] eqn:El; [|done]. apply (HS i d t Hi). exists b. split; [done|].
  destruct (RStackModel.execs _ _); congruence.
Qed.
End run.
End Proofs.
