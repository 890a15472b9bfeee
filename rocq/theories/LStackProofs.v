(** * Proofs about LStackModel. *)

From stdpp Require Import prelude gmap list.
From Coq Require Import NArith Lia.
From Verif Require Import PoolCommon LazyModel DeepModel DeepSpec DeepProofs LStackModel LStackSpec.
From Verif Require RuntimeModel RuntimeSpec StackModel StackSpec FineModel FineSpec FineProofs2.
From Verif Require RStackModel FStackModel FStackSpec FStackProofs Prop_FStack.
From Verif Require WholeModel WholeInv WholeSpec WholeProofs LazyLive LazyWeakProofs.

Section Proofs.
Context (n nd : nat) (dom : nat -> nat) (K k : nat) (af : bool).
Notation deep_step := (deep_step n nd dom K).
Notation sstep := (sstep n nd dom K).
Notation creach := (FStackSpec.creach n k af).
Notation sreach := (sreach n nd dom K k af).

(** A step of the pool makes the step [fine_part] of the runtime and the deques. *)
Lemma part_step l x x' : deep_step l x = DNext x' ->
  match fine_part K l x with
  | Some fl => exists tr, FineModel.fstep fl (fn x) = FineModel.FNext (fn x') tr /\ hist x' = rev tr ++ hist x
  | None => fn x' = fn x /\ hist x' = hist x
  end.
Proof.
  assert (B : forall pl fl t, both n nd dom pl (FineModel.fstep fl (fn x)) t x = DNext x' ->
    exists tr, FineModel.fstep fl (fn x) = FineModel.FNext (fn x') tr /\ hist x' = rev tr ++ hist x).
  { intros pl fl t (p & trp & f & tr & _ & E & ->)%both_next. exists tr. by split. }
  assert (A : forall pl t, both n nd dom pl (FineModel.FNext (fn x) []) t x = DNext x' -> fn x' = fn x /\ hist x' = hist x).
  { intros pl t (p & trp & f & tr & _ & [= <- <-] & ->)%both_next. done. }
  destruct l as [w c v fail|a d t| |w|w]; unfold DeepModel.deep_step, alone; cbn [fine_part]; intros Hs; [| |by eapply A|by eapply A|].
  - destruct (decide (w < n)); [|done]. unfold thread, alone in Hs. unfold thread_part.
    destruct (ag (pool x) w); try (by eapply A). destruct (FineModel.from (fn x) w) as [u|].
    + cbv zeta in Hs. destruct (match FineModel.fstep _ _ with FineModel.FNext _ _ => _ | _ => _ end); by eapply B.
    + destruct (pc (pool x) w); try (by eapply A).
      all: try (destruct (q (pool x) w); [by eapply A|by eapply B]).
      all: try (destruct (FineModel.looking w (fn x)); [by eapply A|by eapply B]).
      destruct (c_steal c && bool_decide (tries x w < K)); [by eapply B|by eapply A].
  - destruct (decide (a < n)); [done|]. destruct (ag (pool x) a); [by eapply B|by eapply A..].
  - destruct (ag (pool x) w); [|done..]. destruct (pc (pool x) w); try done. by eapply B.
Qed.
Lemma part_allowed l x fl : legal n af l -> fine_part K l x = Some fl -> FineSpec.fallowed n af fl.
Proof.
  destruct l as [w c v fail|a d t| |w|w]; cbn [fine_part legal]; intros Hl; [| |done|done|by intros [= <-]].
  - unfold thread_part. repeat case_match; try done; intros [= <-]; done.
  - destruct (ag (pool x) a); [|done..]. by intros [= <-].
Qed.

(** What a step does. *)
Lemma sstep_inv b x m x' m' : sstep b x m = SNext x' m' ->
  (deep_step (s_lab b) x = DNext x' /\ RStackModel.execs (stack_part K b x) m = RStackModel.MOk m') \/
  (x' = x /\ exists x1, deep_step (s_lab b) x = DNext x1 /\ RStackModel.execs (stack_part K b x) m = RStackModel.MThr m').
Proof.
  unfold LStackModel.sstep. destruct (deep_step (s_lab b) x) as [x1| |]; [|done..].
  destruct (RStackModel.execs (stack_part K b x) m); try done; intros [= <- <-]; [by left|right; split; eauto].
Qed.

Lemma step_creach b x m x' m' : creach (fn x) m (hist x) -> slegal n af b -> sstep b x m = SNext x' m' -> creach (fn x') m' (hist x').
Proof.
  intros Hr (Hl & Hsz) Hs. pose proof (sstep_inv _ _ _ _ _ Hs) as Hi.
  assert (exists x1, deep_step (s_lab b) x = DNext x1) as (x1 & H1) by (destruct Hi as [(?&_)|(_&?&?&_)]; eauto).
  pose proof (part_step _ _ _ H1) as Hp. unfold stack_part in Hi. destruct (fine_part K (s_lab b) x) as [fl|] eqn:Ef.
  - destruct Hp as (tr & Hf & Hh). pose proof (part_allowed _ _ _ Hl Ef) as Ha.
    destruct Hi as [(Hd & He)|(-> & x2 & _ & He)].
    + rewrite H1 in Hd. injection Hd as ->. rewrite Hh.
      refine (FStackSpec.cr_step _ _ _ (with_answers b fl) _ _ _ _ _ _ Hr Ha Hsz _).
      unfold FStackModel.cstep. cbn [FStackModel.c_lab with_answers]. by rewrite Hf, He.
    + refine (FStackSpec.cr_step _ _ _ (with_answers b fl) _ _ _ _ _ [] Hr Ha Hsz _).
      unfold FStackModel.cstep. cbn [FStackModel.c_lab with_answers]. by rewrite Hf, He.
  - cbn [RStackModel.execs] in Hi. destruct Hi as [(Hd & [= <-])|(_ & x2 & _ & He)]; [|done].
    rewrite H1 in Hd. injection Hd as ->. by destruct Hp as (-> & ->).
Qed.

Lemma sreach_creach x m : sreach x m -> creach (fn x) m (hist x).
Proof.
  induction 1 as [m (os & H1 & H2)|x m b x' m' _ IH Hl Hs]; [by eapply FStackSpec.cr_boot|]. by eapply step_creach.
Qed.
Lemma sreach_dreach x m : sreach x m -> dreach n nd dom K k af x.
Proof.
  induction 1 as [|x m b x' m' _ IH Hl Hs]; [constructor|]. destruct Hl as (Hl & _).
  destruct (sstep_inv _ _ _ _ _ Hs) as [(Hd & _)|(-> & _)]; [by econstructor|done].
Qed.

(** The stack code of a step throws only at the beginning of schedule(). *)
Lemma throws_client b x m x1 m' : slegal n af b ->
  deep_step (s_lab b) x = DNext x1 -> RStackModel.execs (stack_part K b x) m = RStackModel.MThr m' ->
  exists a d t, s_lab b = YClient a d t /\ ag (pool x) a = AIdle.
Proof.
  intros (Hl & Hsz) H1 He. pose proof (part_step _ _ _ H1) as Hp. unfold stack_part in He.
  destruct (fine_part K (s_lab b) x) as [fl|] eqn:Ef; [|done]. destruct Hp as (tr & Hf & Hh).
  assert (fl' : exists d t, fl = FineModel.FSpawn d t).
  { revert He. unfold FStackModel.cacts. cbn [FStackModel.c_lab with_answers].
    destruct fl as [i fail|i|i v|d t|i]; [|done|done|by eauto|].
    - destruct (FineModel.from (fn x) i); [done|]. destruct (FStackModel.commit i fail (fn x)) as [[[fl p] l]|]; [|done].
      intros (d & t & X)%FStackProofs.acts_spawn. discriminate X.
    - intros (d & t & X)%FStackProofs.acts_spawn. discriminate X. }
  destruct fl' as (d & t & ->). destruct (s_lab b) as [w c v fail|a d' t'| |w|w]; cbn [fine_part] in Ef; try done.
  - unfold thread_part in Ef. repeat case_match; done.
  - destruct (ag (pool x) a) eqn:Ea; [|done..]. injection Ef as -> ->. by exists a, d, t.
Qed.

(** ** The pool's part of a step *)

Lemma step_parts l x y : deep_step l x = DNext y -> exists pl r t, both n nd dom pl r t x = DNext y /\
  match pl with
  | Some (LAgent a _ _) => match l with YWorker w _ _ _ => a = w /\ w < n | YClient b _ _ => a = b | _ => False end
  | _ => True
  end.
Proof.
  destruct l as [w c v fail|a d t| |w|w]; unfold DeepModel.deep_step, thread, alone; intros E;
    repeat case_match; try done; eexists _, _, _; (split; [exact E|done]).
Qed.
Lemma other_client l x y a : deep_step l x = DNext y -> n <= a -> (forall d t, l <> YClient a d t) -> ag (pool y) a = ag (pool x) a.
Proof.
  intros (pl & r & t & (p & trp & f & tr & E & _ & ->)%both_next & Hp)%step_parts Ha Hn. cbn. destruct pl as [j|]; [|by injection E as <- _].
  apply (LazyLive.other_ag n nd dom a j _ _ _ E). destruct j as [|b d j| |]; simpl; try done.
  destruct l as [u c v fail|b' d' t'| |u|u]; try done.
  - destruct Hp as [-> Hu]. lia.
  - subst b. intros <-. by apply (Hn d' t').
Qed.
Lemma dtor_stays l x y : deep_step l x = DNext y -> dt (pool x) = DDone -> dt (pool y) = DDone.
Proof.
  intros (pl & r & t & (p & trp & f & tr & E & _ & ->)%both_next & Hp)%step_parts Hd. cbn. destruct pl as [j|]; [|by injection E as <- _].
  assert (j = LDtor \/ j <> LDtor) as [->|Hx] by (destruct j; auto; by right).
  - cbn in E. unfold destructor in E. by rewrite Hd in E.
  - by rewrite (LazyLive.other_dt n nd dom j _ _ _ E Hx).
Qed.

(** ** When the pool has been destroyed *)
Lemma pool_left s h : LazyModel.reach n nd dom s h -> dt s = DDone -> forall w, w < n -> pc s w = XDone.
Proof.
  induction 1 as [|s h l s' tr _ IH Hs]; [done|]. intros Hd. by eapply LazyWeakProofs.step_left.
Qed.

(** All workers are idle. *)
Lemma ended_idle x : dreach n nd dom K k af x -> dt (pool x) = DDone ->
  forall w wk, RuntimeModel.s_workers (FineModel.rt (fn x)) !! w = Some wk -> RuntimeModel.w_pc wk = RuntimeModel.PIdle.
Proof.
  intros (y & D & _)%dreach_sim Hd w wk Hw. pose proof (ds_winv _ _ _ _ _ _ _ D) as I.
  destruct (ds_sim _ _ _ _ _ _ _ D) as (Q & H & M). pose proof (FineProofs2.sim_agrees _ _ _ _ _ _ _ _ M) as Ha.
  destruct (Forall2_lookup_l _ _ _ _ _ (FineSpec.a_workers _ _ Ha) Hw) as (wk' & Hw' & E & _). rewrite E.
  assert (Hn : w < n) by (rewrite <- (WholeInv.wi_len _ _ _ _ _ I); by eapply lookup_lt_Some).
  pose proof (WholeInv.wi_agree _ _ _ _ _ I w wk' Hw') as Hg. destruct (WholeInv.wi_pool _ _ _ _ _ I) as [h Hh].
  rewrite (ds_pool _ _ _ _ _ _ _ D) in Hd. rewrite (pool_left _ _ Hh Hd w Hn) in Hg. by destruct Hg.
Qed.

(** ** Infinite executions *)
Section run.
Context (sg : nat -> deep) (mm : nat -> RStackModel.mem) (l : nat -> option slab).
Context (HW : sfair n nd dom K k af sg mm l).

(** The same without memory: a call of schedule() that throws is no step. *)
Definition bare (i : nat) : option dlab :=
  match l i with
  | Some b => match RStackModel.execs (stack_part K b (sg i)) (mm i) with RStackModel.MThr _ => None | _ => Some (s_lab b) end
  | None => None
  end.

Lemma run_sreach i : sreach (sg i) (mm i).
Proof.
  destruct (sf_run _ _ _ _ _ _ _ _ _ HW) as [(R0 & Rm) R1]. induction i as [|i IH]; [rewrite R0; by constructor|].
  specialize (R1 i). rewrite Nat.add_1_r in R1. destruct (l i) as [b|]; [|by destruct R1 as (-> & ->)].
  destruct R1 as (H1 & H2). by eapply (sreach_step _ _ _ _ _ _ _ _ b).
Qed.
Lemma bare_run : drun n nd dom K k af sg bare.
Proof.
  destruct HW as [[(R0 & Rm) R1] _ _ _]. split; [done|]. intros i. specialize (R1 i). unfold bare. destruct (l i) as [b|]; [|by destruct R1].
  destruct R1 as ((Hl & _) & Hs). pose proof (sstep_inv _ _ _ _ _ Hs) as Hi.
  destruct (RStackModel.execs (stack_part K b (sg i)) (mm i)) eqn:E;
    (destruct Hi as [(H1 & H2)|(H1 & x1 & H2 & H3)]; [try done|try done]); done.
Qed.
Lemma bare_makes i d : makes (l i) d -> (forall a e t, d = YClient a e t -> ag (pool (sg i)) a <> AIdle) -> bare i = Some d.
Proof.
  intros (b & Hb & <-) Hn. unfold bare. rewrite Hb.
  pose proof (sr_step _ _ _ _ _ _ _ _ _ (sf_run _ _ _ _ _ _ _ _ _ HW) i) as Hs. rewrite Hb in Hs. destruct Hs as (Hl & Hs).
  pose proof (sstep_inv _ _ _ _ _ Hs) as Hi. destruct (RStackModel.execs (stack_part K b (sg i)) (mm i)) eqn:E; try done.
  destruct Hi as [(_ & Hi)|(_ & x1 & Hd & _)]; [done|].
  destruct (throws_client b _ _ _ _ Hl Hd E) as (a & e & t & X & Y). by destruct (Hn a e t).
Qed.
(** A thread inside schedule() goes on with it. *)
Lemma client_goes_on a d : forall i, n <= a -> ag (pool (sg i)) a <> AIdle -> (exists e t, makes (l (i + d)) (YClient a e t)) ->
  exists j e t, i <= j /\ bare j = Some (YClient a e t).
Proof.
  induction d as [|d IH]; intros i Ha Hn (e & t & Hm).
  - rewrite Nat.add_0_r in Hm. exists i, e, t. split; [done|]. apply bare_makes; [done|]. by intros ? ? ? [= <- _ _].
  - assert (Hdec : (exists e t, bare i = Some (YClient a e t)) \/ forall e t, bare i <> Some (YClient a e t)).
    { destruct (bare i) as [[| b | | |]|]; [by right| |by right..]. destruct (decide (b = a)) as [->|]; [left; eauto|right; congruence]. }
    destruct Hdec as [(e' & t' & Hb)|Hne]; [by exists i, e', t'|].
    pose proof (dr_step _ _ _ _ _ _ _ _ bare_run i) as Hs. rewrite Nat.add_1_r in Hs.
    destruct (IH (S i) Ha) as (j & e' & t' & Hj & Hb).
    + destruct (bare i) as [z|]; [|by rewrite Hs]. destruct Hs as (_ & Hs).
      rewrite (other_client z _ _ a Hs Ha); [done|]. intros e' t' ->. by apply (Hne e' t').
    + exists e, t. by replace (S i + d) with (i + S d) by lia.
    + exists j, e', t'. split; [lia|done].
Qed.

Lemma bare_fair : dfair n nd dom K k af sg bare.
Proof.
  split; [exact bare_run|..].
  - intros w i Hlt. destruct (sf_worker _ _ _ _ _ _ _ _ _ HW w i Hlt) as (j & Hij & [(c & v & fail & H)|H]); exists j; (split; [done|]); [left|by right].
    exists c, v, fail. by apply bare_makes.
  - intros a i Ha Hn. destruct (sf_client _ _ _ _ _ _ _ _ _ HW a i Ha Hn) as (j & d & t & Hij & Hm).
    apply (client_goes_on a (j - i) i Ha Hn). exists d, t. by replace (i + (j - i)) with j by lia.
  - intros i Hd. destruct (sf_dtor _ _ _ _ _ _ _ _ _ HW i Hd) as (j & Hij & [H|H]); exists j; (split; [done|]); [left|by right]. by apply bare_makes.
Qed.
Lemma bare_proper N : sproper N sg l -> proper N sg bare.
Proof.
  intros [P1 P2]. split; [|done]. intros i a d t Hi Hb. unfold bare in Hb. destruct (l i) as [b|] eqn:El; [|done].
  apply (P1 i a d t Hi). exists b. split; [done|]. destruct (RStackModel.execs _ _); congruence.
Qed.

(** In the end no task is left in memory, and the destructor has returned if it was called. *)
Lemma rests N : sproper N sg l -> all_terminate af sg ->
  exists m, forall i, m <= i -> RuntimeModel.s_frames (FineModel.rt (fn (sg i))) = ∅.
Proof.
  intros HP HT. pose proof (run_sim n nd dom K k af sg bare bare_fair) as HS.
  destruct (WholeProofs.comes_to_rest n nd dom af _ _ (whole_fair n nd dom K k af sg bare bare_fair) N
    (whole_proper n nd dom K k af sg bare bare_fair N (bare_proper N HP)) (whole_terminate n nd dom K k af sg bare bare_fair HT)) as (m & _ & Hm).
  exists m. intros i Hi. destruct (Hm i Hi) as [_ Hf]. destruct (ds_sim _ _ _ _ _ _ _ (HS i)) as (Q & H & M).
  by rewrite (FineSpec.a_frames _ _ (FineProofs2.sim_agrees _ _ _ _ _ _ _ _ M)).
Qed.
Lemma stays_done i j : i <= j -> dt (pool (sg i)) = DDone -> dt (pool (sg j)) = DDone.
Proof.
  intros Hij Hd. induction Hij as [|j _ IH]; [done|]. pose proof (dr_step _ _ _ _ _ _ _ _ bare_run j) as Hs. rewrite Nat.add_1_r in Hs.
  destruct (bare j) as [z|]; [|by rewrite Hs]. destruct Hs as (_ & Hs). by eapply dtor_stays.
Qed.
End run.
End Proofs.
