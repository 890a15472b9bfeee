(** The runtime on the real deques makes progress. *)

From stdpp Require Import prelude gmap list.
From Coq Require Import NArith ZArith Lia.
From Verif Require Import RuntimeModel RuntimeSpec RuntimeInv RuntimeSafe RuntimeHist3 RuntimeThms RuntimeTermSpec RuntimeTerm3
  FineModel FineSpec FineLiveSpec FineProofs FineProofs2.
From Verif Require DequeModel DequeSpec DequeProofs DequeLin FineDeque.

(** ** How far a worker is from its next step of the runtime *)

Definition orank (o : DequeModel.opc N) : nat :=
  match o with
  | DequeModel.OIdle => 0
  | DequeModel.OPushRet _ => 9
  | DequeModel.OPushTop _ _ => 6 | DequeModel.OPushBuf _ _ _ => 5 | DequeModel.OPushPub _ _ _ _ => 4
  | DequeModel.OPushStore _ _ _ => 3 | DequeModel.OPushBot _ _ => 2
  | DequeModel.OPopStore _ => 5 | DequeModel.OPopTop _ => 4 | DequeModel.OPopCas _ _ => 3
  | DequeModel.OPopRestore _ _ => 2 | DequeModel.OPopRet _ => 1 | DequeModel.OPopNone => 1
  end.
Definition trank (t : DequeModel.tpc N) : nat :=
  match t with
  | DequeModel.TIdle => 0 | DequeModel.TTop => 6 | DequeModel.TBot _ => 5 | DequeModel.TBuf _ => 4
  | DequeModel.TSlot _ _ => 3 | DequeModel.TCas _ _ => 2 | DequeModel.TRet _ => 1
  end.
Definition mu (i : nat) (x : fine) : nat :=
  match from x i with
  | Some v => 20 + trank (thf (dq x v) i)
  | None =>
    match DequeModel.d_own (dq x i) with
    | DequeModel.OIdle => match next_op i (rt x) with NoOp => 0 | _ => 8 end
    | o => orank o
    end
  end.

Lemma own_pending k q h p : DequeModel.reach k q h -> in_phase None h p -> pending p ->
  match DequeModel.d_own q with DequeModel.OIdle | DequeModel.OPushRet _ => False | _ => True end.
Proof.
  intros Hr Hp Hpend. destruct (DequeModel.d_own q) eqn:Ho; try done.
  - by rewrite (proj1 (FineDeque.own_idle _ _ _ _ Hr Hp) Ho) in Hpend.
  - destruct (DequeProofs.reach_inv _ _ _ Hr) as [(r0 & _ & _ & _ & _ & Hown & Htr & _) _ _ _].
    unfold DequeProofs.own_tr in Htr. rewrite Ho in Htr. destruct Htr as (v & Htr).
    pose proof (DequeLin.in_phase_fun _ _ _ Htr _ Hp) as E. by subst p.
Qed.

Lemma owner_rank op fail q q' ev : DequeModel.owner op fail q = DequeModel.Next q' ev ->
  match DequeModel.d_own q with
  | DequeModel.OIdle => orank (DequeModel.d_own q') <= 6 /\ DequeModel.d_own q' <> DequeModel.OIdle
  | DequeModel.OPushRet _ => DequeModel.d_own q' = DequeModel.OIdle
  | _ => match DequeModel.d_own q' with DequeModel.OIdle | DequeModel.OPushRet _ => True
         | o => orank o < orank (DequeModel.d_own q) end
  end.
Proof.
  unfold DequeModel.owner, DequeModel.with_cur. intros E.
  destruct (DequeModel.d_own q) eqn:Eo; repeat case_match; try done; injection E as <- <-; cbn;
    try done; try lia; try (split; [lia|done]); destruct ok; lia.
Qed.

Lemma thief_rank i q q' ev : DequeModel.thief i q = DequeModel.Next q' ev ->
  (DequeModel.d_thf q i <> TIdle -> trank (DequeModel.d_thf q' i) < trank (DequeModel.d_thf q i)) /\
  (forall j, j <> i -> DequeModel.d_thf q' j = DequeModel.d_thf q j) /\ DequeModel.d_own q' = DequeModel.d_own q.
Proof.
  unfold DequeModel.thief. intros E.
  destruct (DequeModel.d_thf q i) eqn:Ei; repeat case_match; try done; injection E as <- <-;
    (split; [intros Hn; try done; cbn; rewrite decide_True by done; cbn; lia|split; [intros j Hj; cbn; by rewrite decide_False|done]]).
Qed.

Lemma sim_next_op nw k af x h s Q H i : sim nw k af x h s Q H -> next_op i (rt x) = next_op i s.
Proof. intros [_ -> _ _ _ _]. by rewrite next_op_wd. Qed.

(** A step of the runtime on atomic deques has been made. *)
Definition advanced (nw k : nat) (af : bool) (x' : fine) (h h' : history) (s : state) : Prop :=
  exists s' Q H, sim nw k af x' h' s' Q H /\ moves nw af (s, h) (s', h').

Lemma advanced_step nw k af x' h tr s s' Q H l :
  sim nw k af x' (rev tr ++ h) s' Q H -> allowed nw af l -> (forall d t, l <> LSpawn d t) -> step l s = Next s' tr ->
  advanced nw k af x' h (rev tr ++ h) s.
Proof. intros M Ha Hn Hs. exists s', Q, H. split; [done|]. by exists l, tr. Qed.

(** The outcome of a step: it is a step of the runtime on atomic deques, or nothing changes but
    the deques. *)
Definition outcome_of (nw k : nat) (af : bool) (x' : fine) (h : history) (s : state) (tr : list event) (P : Prop) : Prop :=
  advanced nw k af x' h (rev tr ++ h) s \/ (tr = [] /\ (exists Q H, sim nw k af x' h s Q H) /\ P).

Lemma after_from y d a x' tr : after y d a = FNext x' tr -> dq x' = d /\ from x' = a.
Proof. destruct y; cbn; try done. by intros [= <- <-]. Qed.
Lemma op_step_parts i op fail x x' tr : op_step i op fail x = FNext x' tr ->
  exists q ev, DequeModel.owner op fail (dq x i) = DequeModel.Next q ev /\ dq x' = set_at i q (dq x) /\ from x' = from x.
Proof.
  unfold op_step. destruct (DequeModel.owner op fail (dq x i)) as [q ev|]; [|done]. intros E. exists q, ev. split; [done|].
  repeat case_match; try done; first [by apply after_from in E | by injection E as <- <-].
Qed.
Lemma steal_step_parts i v x x' tr : steal_step i v x = FNext x' tr ->
  exists q ev, DequeModel.thief i (dq x v) = DequeModel.Next q ev /\ dq x' = set_at v q (dq x) /\
    (from x' = from x \/ from x' = set_at i None (from x)).
Proof.
  unfold steal_step. destruct (DequeModel.thief i (dq x v)) as [q ev|]; [|done]. intros E. exists q, ev. split; [done|].
  repeat case_match; injection E as <- <-; cbn; auto.
Qed.

(** A step of worker [i]. *)
Lemma work_mu nw k af x h s Q H i fail x' tr :
  sim nw k af x h s Q H -> fallowed nw af (FWork i fail) -> fstep (FWork i fail) x = FNext x' tr ->
  outcome_of nw k af x' h s tr (mu i x' < mu i x).
Proof.
  intros M Hal Hs. pose proof M as [HR Es HH HO HT HF].
  destruct (sim_fstep _ _ _ _ _ _ _ _ _ M Hal) as (_ & Hm). destruct (Hm _ _ Hs) as (s' & Q' & H' & M' & Hc). clear Hm.
  destruct Hc as [(-> & ->)|(l & Hl & Ha & Hst)]; cycle 1.
  { left. eapply advanced_step; [done|done| |done]. destruct Hl as [(fl & -> & _)|(v & ->)]; done. }
  cbn [fstep] in Hs. destruct (from x i) as [v|] eqn:Hf.
  - right. split; [done|]. split; [eauto|].
    destruct (steal_step_parts _ _ _ _ _ Hs) as (q & ev & Eq & Ed & Ef).
    destruct (HF i v Hf) as (_ & _ & X3 & X4 & _). destruct (thief_rank _ _ _ _ Eq) as (Hr & _ & Ho).
    unfold mu. rewrite Hf. destruct Ef as [-> | ->].
    + rewrite Hf, Ed, set_at_eq. specialize (Hr X4). lia.
    + rewrite set_at_eq, Ed. assert (E : DequeModel.d_own (set_at v q (dq x) i) = OIdle).
      { destruct (decide (i = v)) as [->|Hn]; [by rewrite set_at_eq, Ho|by rewrite set_at_ne]. }
      rewrite E. destruct (next_op _ _); lia.
  - unfold own_step in Hs. 
    assert (Hdec : DequeModel.d_own (dq x i) = OIdle \/ DequeModel.d_own (dq x i) <> OIdle) by (destruct (DequeModel.d_own (dq x i)); auto).
    destruct Hdec as [Ho|Ho]; cycle 1.
    + assert (Hs' : op_step i None fail x = FNext x' []) by (by destruct (DequeModel.d_own (dq x i))).
      clear Hs. destruct (HO i) as (p & c & Hp & _).
      destruct (sim_op nw k af x h s Q H i None fail p M Hf Hal Hp ltac:(done)) as (_ & Hm).
      destruct (Hm _ _ Hs') as (s2 & Q2 & H2 & p2 & M2 & Hp2 & Hc). clear Hm.
      destruct Hc as [(-> & _ & Hpend & _)|(_ & _ & fl & Hfl & Hst & _)]; cycle 1.
      { left. eapply advanced_step; [done| | |done]; [cbn; auto|done]. }
      right. split; [done|]. split; [eauto|].
      destruct (op_step_parts _ _ _ _ _ _ Hs') as (q & ev & Eq & Ed & Ef).
      pose proof (owner_rank _ _ _ _ _ Eq) as Hr. unfold mu. rewrite Ef, Hf, Ed, set_at_eq.
      assert (Hq : pending p -> match DequeModel.d_own q with DequeModel.OIdle | DequeModel.OPushRet _ => False | _ => True end).
      { intros X. specialize (Hpend (or_intror X)). pose proof (m_hist _ _ _ _ _ _ _ _ M2 i) as Hri.
        rewrite Ed, set_at_eq in Hri. by eapply own_pending. }
      assert (Hp' : match DequeModel.d_own (dq x i) with DequeModel.OIdle | DequeModel.OPushRet _ => True | _ => pending p end).
      { pose proof (HH i) as Hri. destruct (DequeProofs.reach_inv _ _ _ Hri) as [(r0 & _ & _ & _ & _ & Hown & Htr & _) _ _ _].
        unfold DequeProofs.own_tr, DequeProofs.own_phase, DequeProofs.own_ok in *.
        destruct (DequeModel.d_own (dq x i)) as [|v b|v b t|v b t rn|v b t|v b|x0|b|b|b t|b [|]|b|];
          try done; try (destruct Htr as (v0 & Htr)); try (pose proof (DequeLin.in_phase_fun _ _ _ Htr _ Hp) as E; by subst p).
        - destruct Hown as (-> & _ & Hv). destruct Hv as (_ & v & Hv); [done|]. rewrite Hv in Htr.
          pose proof (DequeLin.in_phase_fun _ _ _ Htr _ Hp) as E. by subst p.
        - destruct Hown as (_ & v & Hv). rewrite Hv in Htr.
          pose proof (DequeLin.in_phase_fun _ _ _ Htr _ Hp) as E. by subst p. }
      destruct (DequeModel.d_own (dq x i)) eqn:Eo; try done;
        try (specialize (Hq Hp'); destruct (DequeModel.d_own q); done).
      rewrite Hr. cbn. destruct (next_op _ _); lia.
    + rewrite Ho in Hs.
      assert (Hop : forall op, op_step i op false x = FNext x' [] -> next_op i (rt x) <> NoOp -> mu i x' < mu i x).
      { intros op E Hne. destruct (op_step_parts _ _ _ _ _ _ E) as (q & ev & Eq & Ed & Ef).
        pose proof (owner_rank _ _ _ _ _ Eq) as Hr. rewrite Ho in Hr. destruct Hr as (Hr1 & Hr2).
        unfold mu. rewrite Ef, Hf, Ed, set_at_eq, Ho. destruct (next_op i (rt x)); [done|..]; destruct (DequeModel.d_own q); cbn in *; try done; lia. }
      assert (Hplain : forall fl, fl = fail -> next_op i (rt x) = NoOp \/ (fl = true /\ exists f, next_op i (rt x) = DoPush f) ->
        after (wstep i fl (show i (seen (dq x i)) (rt x))) (dq x) (from x) = FNext x' [] -> advanced nw k af x' h h s).
      { intros fl -> Hop2 E. destruct (sim_plain _ _ _ _ _ _ _ _ _ _ M Hf Hal Ho Hop2) as (_ & Hm).
        destruct (Hm _ _ E) as (s2 & Q2 & H2 & M2 & Hst).
        apply (advanced_step nw k af x' h [] s s2 Q2 H2 (LWork i fail) M2 Hal ltac:(done) Hst). }
      destruct (next_op i (rt x)) as [|f|] eqn:Hnx.
      * left. apply (Hplain fail); auto.
      * destruct fail; [left; eapply (Hplain true); eauto|].
        right. split; [done|]. split; [eauto|]. by eapply Hop.
      * right. split; [done|]. split; [eauto|]. by eapply Hop.
Qed.

(** A step of somebody else. *)
Lemma other_mu nw k af x h s Q H i l x' tr :
  sim nw k af x h s Q H -> fallowed nw af l -> (forall d t, l <> FSpawn d t) -> ~ by_worker i l -> fstep l x = FNext x' tr ->
  outcome_of nw k af x' h s tr (mu i x' = mu i x).
Proof.
  intros M Hal Hnsp Hby Hs.
  destruct (sim_fstep _ _ _ _ _ _ _ _ _ M Hal) as (_ & Hm). destruct (Hm _ _ Hs) as (s' & Q' & H' & M' & Hc). clear Hm.
  destruct Hc as [(-> & ->)|(l' & Hl & Ha & Hst)]; cycle 1.
  { left. eapply advanced_step; [done|done| |done]. intros d t ->. destruct l; naive_solver. }
  right. split; [done|]. split; [eauto|].
  assert (Hnx : next_op i (rt x') = next_op i (rt x)) by (by rewrite (sim_next_op _ _ _ _ _ _ _ _ i M), (sim_next_op _ _ _ _ _ _ _ _ i M')).
  assert (Hmu : from x' i = from x i -> DequeModel.d_own (dq x' i) = DequeModel.d_own (dq x i) ->
    (forall v, thf (dq x' v) i = thf (dq x v) i) -> mu i x' = mu i x).
  { intros E1 E2 E3. unfold mu. rewrite E1, E2, Hnx. destruct (from x i); [by rewrite E3|done]. }
  assert (Hown : forall j op fl, j <> i -> op_step j op fl x = FNext x' [] -> mu i x' = mu i x).
  { intros j op fl Hj E. destruct (op_step_parts _ _ _ _ _ _ E) as (q & ev & Eq & Ed & Ef).
    apply Hmu; [by rewrite Ef|by rewrite Ed, set_at_ne|]. intros v. rewrite Ed. destruct (decide (v = j)) as [->|Hn].
    - rewrite set_at_eq. by destruct (FineDeque.owner_events _ _ _ _ _ Eq) as (-> & _).
    - by rewrite set_at_ne. }
  assert (Haft : forall y, after y (dq x) (from x) = FNext x' [] -> mu i x' = mu i x).
  { intros y (E1 & E2)%after_from. apply Hmu; by rewrite ?E1, ?E2. }
  assert (Hsteal : forall j v a, j <> i -> (a i = from x i) -> steal_step j v (Fine (rt x) (dq x) a) = FNext x' [] -> mu i x' = mu i x).
  { intros j v a Hj Hai E. destruct (steal_step_parts _ _ _ _ _ E) as (q & ev & Eq & Ed & Ef). cbn [dq from rt] in *.
    destruct (thief_rank _ _ _ _ Eq) as (_ & Ht & Ho). apply Hmu.
    - destruct Ef as [-> | ->]; [done|]. by rewrite set_at_ne by done.
    - rewrite Ed. destruct (decide (i = v)) as [->|Hn]; [by rewrite set_at_eq, Ho|by rewrite set_at_ne].
    - intros u. rewrite Ed. destruct (decide (u = v)) as [->|Hn]; [rewrite set_at_eq; by apply Ht|by rewrite set_at_ne]. }
  destruct l as [j fl|j|j v|d t|j]; cbn [fstep by_worker] in *.
  - destruct (from x j) as [v|] eqn:Hf.
    + apply (Hsteal j v (from x)); [done|done|]. by destruct x.
    + unfold own_step in Hs. repeat case_match; try (by eapply Haft); by eapply Hown.
  - destruct (looking j x); [|done]. by eapply Haft.
  - case_decide; [done|]. destruct (s_workers (rt x) !! v); [|done]. destruct (looking j x); [|done].
    eapply (Hsteal j v (set_at j (Some v) (from x))); [done| |done]. by rewrite set_at_ne.
  - by destruct (Hnsp d t).
  - repeat case_match; try done. by eapply Haft.
Qed.

(** ** When a worker can go on *)

Lemma wstep_idle i fail r w : s_workers r !! i = Some w -> w_pc w = PIdle -> w_batch w = [] -> wstep i fail r = Blocked.
Proof. intros Hi E1 E2. unfold wstep. by rewrite Hi, E1, E2. Qed.

Lemma next_op_blocked i fail l r : next_op i r <> NoOp -> wstep i fail (show i l r) <> Blocked.
Proof.
  intros Hn Hb. destruct (next_op_lt i r Hn) as (w & Hw).
  destruct (wstep_blocked _ _ _ _ (show_lookup i l r w Hw) Hb) as (E1 & _). cbn in E1.
  unfold next_op in Hn. rewrite Hw, E1 in Hn. done.
Qed.

Lemma work_enabled nw k af x h s Q H i :
  sim nw k af x h s Q H -> step (LWork i false) s <> Blocked \/ looking i x = false /\ s_workers (rt x) !! i <> None ->
  fstep (FWork i false) x <> FBlocked.
Proof.
  intros M He. pose proof M as [HR Es HH HO HT HF]. cbn [fstep].
  assert (Haft : forall y d a, y <> Blocked -> after y d a <> FBlocked) by (intros []; done).
  destruct (from x i) as [v|] eqn:Hf.
  { unfold steal_step. repeat case_match; done. }
  assert (Hopst : forall op, (DequeModel.d_own (dq x i) = OIdle -> next_op i (rt x) <> NoOp) -> op_step i op false x <> FBlocked).
  { intros op Hid. unfold op_step. destruct (DequeModel.owner op false (dq x i)) as [q ev|] eqn:E; [|done].
    destruct (HO i) as (p & c & Hp & Hc & EQ & Hem & Hd).
    destruct (FineDeque.own_step_hist _ _ _ _ _ _ _ _ _ (HH i) E Hp Hc) as (_ & _ & Hev & _).
    destruct Hev as [(-> & _)|[(o & -> & _ & ->)|[(o & r & c' & -> & -> & _)|(o & r & -> & ->)]]]; try done.
    - destruct o as [f| |]; cbn in Hd; [|done|done].
      destruct r; apply Haft, next_op_blocked; by rewrite Hd.
    - assert (Hr : next_op i (rt x) = DoPop \/ r = RUnit \/ r = RThrow).
      { destruct o as [f| |]; cbn in Hd; [|by left|done]. right.
        destruct (FineDeque.done_result _ _ _ Hp _ _ _ Hc eq_refl) as (c1 & c2 & Hs). inversion Hs; auto. }
      destruct Hr as [Hr|[-> | ->]]; [|done..].
      destruct r; try done; [|destruct (seen q); [|done]]; apply Haft, next_op_blocked; by rewrite Hr. }
  unfold own_step. destruct (DequeModel.d_own (dq x i)) eqn:Ho; try (apply Hopst; done).
  destruct (next_op i (rt x)) as [|f|] eqn:Hnx; [|by apply Hopst..].
  apply Haft. intros Hb. destruct (s_workers (rt x) !! i) as [w|] eqn:Hw.
  - destruct (wstep_blocked _ _ _ _ (show_lookup i _ (rt x) w Hw) Hb) as (E1 & E2). cbn in E1, E2.
    destruct He as [He|(He & _)].
    + apply He. cbn [step]. eapply wstep_idle; [rewrite Es, wd_lookup, Hw; done|done|done].
    + unfold looking in He. by rewrite Hw, Ho, Hf, E1, E2 in He.
  - destruct He as [He|(_ & He)]; [|done]. apply He. cbn [step]. unfold wstep. by rewrite Es, wd_lookup, Hw.
Qed.

Lemma take_sim nw k af x h s Q H i x' tr :
  sim nw k af x h s Q H -> fstep (FTake i) x = FNext x' tr -> advanced nw k af x' h (rev tr ++ h) s.
Proof.
  intros M Hs. cbn [fstep] in Hs. destruct (looking i x) eqn:Hl; [|done].
  assert (Hnb : step (LTake i) s = res_map (with_deques Q) (take i (rt x))).
  { cbn [step]. rewrite (m_state _ _ _ _ _ _ _ _ M). apply take_c. }
  pose proof M as [HR Es HH HO HT HF].
  assert (Hfo : from x i = None /\ DequeModel.d_own (dq x i) = OIdle).
  { unfold looking in Hl. by repeat case_match. }
  destruct Hfo as (Hf & Ho).
  edestruct (sim_after nw k af x h s Q H i (LTake i) (take i (rt x)) (dq x) H Q M Hf I Hnb) as (_ & Z2).
  + apply calm_take.
  + done.
  + apply HH.
  + done.
  + intros r' tr' _. destruct (HO i) as (p & c & Hp & Hc & EQ & Hem & Hd). exists p, c.
    pose proof (proj1 (FineDeque.own_idle _ _ _ _ (HH i) Hp) Ho) as ->. split_and!; done.
  + destruct (Z2 x' tr Hs) as (s' & Hs' & Hst). by eapply (advanced_step nw k af x' h tr s s' Q H (LTake i)).
Qed.

Lemma stale_sim nw k af x h s Q H i x' tr :
  sim nw k af x h s Q H -> fstep (FStale i) x = FNext x' tr -> advanced nw k af x' h (rev tr ++ h) s.
Proof.
  intros M Hs. destruct (sim_stale _ _ _ _ _ _ _ _ i M) as (_ & Z2). destruct (Z2 x' tr Hs) as (s' & Hs' & Hst).
  by eapply (advanced_step nw k af x' h tr s s' Q H (LStale i)).
Qed.

(** ** Progress: the runtime never has to wait for a steal *)

Lemma progress_own nw af s h :
  reach nw af s h -> s_frames s <> ∅ ->
  exists i w, s_workers s !! i = Some w /\
    (step (LWork i false) s <> Blocked \/ (w_pc w = PIdle /\ w_batch w = [] /\ w_inbox w <> [])).
Proof.
  intros HR Hne. destruct (map_choose _ Hne) as (f & fr & Hf).
  destruct (reach_inv _ _ _ _ HR) as (G & I).
  destruct (decide (Exists (fun w => busy w = true) (s_workers s))) as [He|Hno].
  - apply Exists_exists in He as (w & Hin & Hw). apply elem_of_list_lookup in Hin as (i & Hi). exists i, w. split; [done|].
    destruct (decide (wstep i false s = Blocked)) as [Eb|Eb]; [|by left].
    destruct (wstep_blocked _ _ _ _ Hi Eb) as (E1 & E2). unfold busy in Hw. rewrite E1, E2 in Hw. right.
    split_and!; [done|done|]. by destruct (w_inbox w).
  - exfalso. assert (Qt : RuntimeThms.quiet s).
    { intros i w Hi.
      destruct (busy w) eqn:E; [|apply busy_false in E as (E1 & E2 & E3)]; cycle 1.
      - destruct (i_wrk _ _ _ I i w Hi) as ((_ & W) & _). rewrite E1 in W. destruct W. done.
      - exfalso. apply Hno. apply Exists_exists. exists w. split; [by apply elem_of_list_lookup_2 in Hi|done]. }
    by rewrite (quiet_empty _ _ _ I Qt f) in Hf.
Qed.

(** ** Infinite executions *)

Section endless.
Context (nw k : nat) (af : bool) (x : nat -> fine * history) (c : nat -> option flabel) (K : nat).
Hypothesis HE : endless nw af x c.
Hypothesis HP : pool_loop K x c.

Definition at_ (n : nat) (s : state) : Prop := exists Q H, sim nw k af (x n).1 (x n).2 s Q H.
Definition later (n : nat) (s : state) : Prop :=
  exists m, n < m /\ advanced nw k af (x m).1 (x n).2 (x m).2 s.
Definition mine_ (i : nat) (o : option flabel) : Prop := match o with Some l => by_worker i l | None => False end.

Lemma mine_dec i o : mine_ i o \/ ~ mine_ i o.
Proof.
  destruct o as [[j fl|j|j v|d t|j]|]; cbn; try tauto; destruct (decide (j = i)); tauto.
Qed.

Lemma later_S n s : (x (S n)).2 = (x n).2 -> later (S n) s -> later n s.
Proof. intros E (m & Hm & Ha). exists m. split; [lia|]. by rewrite <- E. Qed.
Lemma later_from n m s : n <= m -> (x m).2 = (x n).2 -> later m s -> later n s.
Proof. intros Hle E (m' & Hm & Ha). exists m'. split; [lia|]. by rewrite <- E. Qed.

Lemma outcome_at n s tr P :
  outcome_of nw k af (x (S n)).1 (x n).2 s tr P -> (x (S n)).2 = rev tr ++ (x n).2 ->
  later n s \/ (at_ (S n) s /\ (x (S n)).2 = (x n).2 /\ P).
Proof.
  intros [Ha|(-> & (Q & H & M) & HPr)] E.
  - left. exists (S n). split; [lia|]. by rewrite E.
  - right. cbn in E. split; [|done]. exists Q, H. by rewrite E.
Qed.

Lemma walk i m n s : n <= m -> at_ n s ->
  later n s \/ exists j, n <= j <= m /\ at_ j s /\ (x j).2 = (x n).2 /\ mu i (x j).1 = mu i (x n).1 /\
    (forall j', n <= j' < j -> at_ j' s /\ ~ mine_ i (c j')) /\ (j = m \/ mine_ i (c j)).
Proof using HE.
  remember (m - n) as d eqn:Ed. revert n Ed. induction d as [|d IH]; intros n Ed Hle Hat.
  - right. exists n. split; [lia|]. split_and!; try done; [intros j'; lia|left; lia].
  - destruct (mine_dec i (c n)) as [Hm|Hm].
    { right. exists n. split; [lia|]. split_and!; try done; [intros j'; lia|by right]. }
    assert (Hstep : later n s \/ (at_ (S n) s /\ (x (S n)).2 = (x n).2 /\ mu i (x (S n)).1 = mu i (x n).1)).
    { pose proof (HE n) as He. destruct (c n) as [l|] eqn:Ec; cycle 1.
      { right. unfold at_. by rewrite He. }
      destruct He as (Hal & Hns & tr & Hs & Eh). destruct Hat as (Q & H & M).
      eapply outcome_at; [|done]. by eapply other_mu. }
    destruct Hstep as [|(Hat' & Eh & Emu)]; [by left|].
    destruct (IH (S n) ltac:(lia) ltac:(lia) Hat') as [Hl|(j & Hj & Haj & Ej & Emuj & Hall & Hend)].
    { left. by apply later_S. }
    right. exists j. split; [lia|]. split_and!; try done; try congruence.
    intros j' Hj'. destruct (decide (j' = n)) as [->|]; [done|]. apply Hall. lia.
Qed.

(** A worker that can work does so. *)
Lemma works i s : step (LWork i false) s <> Blocked ->
  forall b n, mu i (x n).1 < b -> at_ n s -> later n s.
Proof using HE HP.
  intros Hen b. induction b as [|b IH]; intros n Hmu Hat; [lia|].
  assert (Hex : is_Some (s_workers (rt (x n).1) !! i)).
  { destruct Hat as (Q & H & M). rewrite (m_state _ _ _ _ _ _ _ _ M) in Hen. destruct (s_workers (rt (x n).1) !! i) eqn:E; [eauto|].
    exfalso. apply Hen. cbn [step]. unfold wstep. by rewrite wd_lookup, E. }
  destruct (pl_works _ _ _ HP i n Hex) as (m & Hle & Hm).
  destruct (walk i m n s Hle Hat) as [|(j & Hj & Haj & Ej & Emu & Hall & Hend)]; [done|].
  apply (later_from n j); [lia|done|].
  destruct (mine_dec i (c j)) as [Hmine|Hnot]; cycle 1.
  { destruct Hend as [->|]; [|done]. destruct Hm as [(l & El & Hl)|(Hb & _)].
    - exfalso. apply Hnot. unfold mine_. by rewrite El.
    - exfalso. destruct Haj as (Q & H & M). eapply work_enabled; [exact M|by left|exact Hb]. }
  pose proof (HE j) as He. destruct (c j) as [l|] eqn:Ec; [|done].
  destruct He as (Hal & Hns & tr & Hs & Eh). destruct Haj as (Q & H & M).
  destruct l as [i' fl|i'|i' v|d t|i']; cbn in Hmine; try done; subst i'.
  - destruct (outcome_at j s tr _ (work_mu _ _ _ _ _ _ _ _ _ _ _ _ M Hal Hs) Eh) as [|(Hat' & Eh' & Hlt)]; [done|].
    apply later_S; [done|]. apply IH; [lia|done].
  - exists (S j). split; [lia|]. rewrite Eh. by eapply take_sim.
  - exfalso. cbn [fstep] in Hs. case_decide; [done|]. destruct (s_workers (rt (x j).1) !! v); [|done].
    destruct (looking i (x j).1) eqn:Hl; [|done]. apply Hen. unfold looking in Hl.
    destruct (s_workers (rt (x j).1) !! i) as [w0|] eqn:Hw; [|done].
    cbn [step]. eapply wstep_idle; [rewrite (m_state _ _ _ _ _ _ _ _ M), wd_lookup, Hw; done|..]; by repeat case_match.
  - exists (S j). split; [lia|]. rewrite Eh. by eapply stale_sim.
Qed.

Lemma waiting_take n s i w : at_ n s -> s_workers s !! i = Some w -> w_pc w = PIdle -> w_batch w = [] -> w_inbox w <> [] ->
  (looking i (x n).1 = true -> fstep (FTake i) (x n).1 <> FBlocked) /\
  (looking i (x n).1 = false -> fstep (FWork i false) (x n).1 <> FBlocked).
Proof.
  intros (Q & H & M) Hw E1 E2 E3. rewrite (m_state _ _ _ _ _ _ _ _ M), wd_lookup in Hw.
  destruct (s_workers (rt (x n).1) !! i) as [w0|] eqn:Hw0; [|done]. injection Hw as <-. cbn in E1, E2, E3.
  split; intros Hl.
  - cbn [fstep]. rewrite Hl. unfold take. rewrite Hw0, E1, E2. by destruct (w_inbox w0).
  - eapply work_enabled; [exact M|]. right. by rewrite Hw0.
Qed.

(** A worker with submissions takes them. *)
Lemma takes i s w : s_workers s !! i = Some w -> w_pc w = PIdle -> w_batch w = [] -> w_inbox w <> [] ->
  forall n0 a b n, n0 <= n -> (forall j, n0 <= j < n -> ~ polls x c i j) -> K <= steals_in c i n0 (n - n0) + a ->
    mu i (x n).1 < b -> at_ n s -> later n s.
Proof using HE HP.
  intros Hw E1 E2 E3 n0 a. induction (lt_wf a) as [a _ IHa]. intros b.
  induction b as [|b IH]; intros n Hn0 Hnp HK Hmu Hat; [lia|].
  assert (Hex : is_Some (s_workers (rt (x n).1) !! i)).
  { destruct Hat as (Q & H & M). rewrite (m_state _ _ _ _ _ _ _ _ M), wd_lookup in Hw. destruct (s_workers (rt (x n).1) !! i); [eauto|done]. }
  destruct (pl_works _ _ _ HP i n Hex) as (m & Hle & Hm).
  destruct (walk i m n s Hle Hat) as [|(j & Hj & Haj & Ej & Emu & Hall & Hend)]; [done|].
  apply (later_from n j); [lia|done|].
  destruct (waiting_take j s i w Haj Hw E1 E2 E3) as (W1 & W2).
  destruct (mine_dec i (c j)) as [Hmine|Hnot]; cycle 1.
  { destruct Hend as [->|]; [|done]. destruct Hm as [(l & El & Hl)|(Hb1 & Hb2)].
    - exfalso. apply Hnot. unfold mine_. by rewrite El.
    - exfalso. destruct (looking i (x m).1); [by apply W1|by apply W2]. }
  pose proof (HE j) as He. destruct (c j) as [l|] eqn:Ec; [|done].
  destruct He as (Hal & Hns & tr & Hs & Eh). pose proof Haj as (Q & H & M).
  assert (Hnp' : (forall i', l <> FTake i') -> forall j', n0 <= j' < S j -> ~ polls x c i j').
  { intros Hl j' Hj'. destruct (decide (j' < n)) as [|Hge]; [apply Hnp; lia|].
    assert (Hx : at_ j' s /\ c j' <> Some (FTake i)).
    { destruct (decide (j' = j)) as [->|Hne].
      - split; [done|]. rewrite Ec. intros [= ->]. by destruct (Hl i).
      - destruct (Hall j') as (Ha & Hmi); [lia|]. split; [done|]. intros E. by rewrite E in Hmi. }
    destruct Hx as (Ha & Hc). destruct (waiting_take j' s i w Ha Hw E1 E2 E3) as (W1' & _).
    intros [?|(X1 & X2)]; [done|]. by apply (W1' X1). }
  assert (Hmon : steals_in c i n0 (n - n0) <= steals_in c i n0 (j - n0)).
  { clear -Hj Hn0. replace (j - n0) with ((n - n0) + (j - n)) by lia. induction (j - n) as [|d IHd]; [rewrite Nat.add_0_r; lia|].
    rewrite Nat.add_succ_r. cbn. lia. }
  assert (HS : steals_in c i n0 (S j - n0) = steals_in c i n0 (j - n0) +
    match l with FSteal i' _ => if decide (i' = i) then 1 else 0 | _ => 0 end).
  { replace (S j - n0) with (S (j - n0)) by lia. cbn. replace (n0 + (j - n0)) with j by lia. by rewrite Ec. }
  destruct l as [i' fl|i'|i' v|d t|i']; cbn in Hmine; try done; subst i'.
  - destruct (outcome_at j s tr _ (work_mu _ _ _ _ _ _ _ _ _ _ _ _ M Hal Hs) Eh) as [|(Hat' & Eh' & Hlt)]; [done|].
    apply later_S; [done|]. apply IH; [lia|by apply Hnp'|lia|lia|done].
  - exists (S j). split; [lia|]. rewrite Eh. by eapply take_sim.
  - rewrite decide_True in HS by done.
    assert (Hpl := pl_polls _ _ _ HP i n0 (S j - n0)). rewrite HS in Hpl.
    assert (steals_in c i n0 (j - n0) + 1 <= K).
    { apply Hpl. intros j' Hj'. apply Hnp'; [done|lia]. }
    destruct (sim_fstep _ _ _ _ _ _ _ _ _ M Hal) as (_ & Hx). destruct (Hx _ _ Hs) as (s' & Q' & H' & M' & Hc).
    destruct Hc as [(-> & ->)|(l & -> & Ha & Hst)]; cycle 1.
    { exists (S j). split; [lia|]. rewrite Eh. eapply advanced_step; [exact M'|done|done|done]. }
    cbn in Eh. apply later_S; [done|].
    eapply (IHa (a - 1)); [lia| |by apply Hnp'| |apply (Nat.lt_succ_diag_r)|].
    + lia.
    + lia.
    + exists Q', H'. by rewrite Eh.
  - exists (S j). split; [lia|]. rewrite Eh. by eapply stale_sim.
Qed.

Lemma drains y : Acc (fun y x => moves nw af x y) y -> forall n, at_ n y.1 -> (x n).2 = y.2 ->
  exists m, n <= m /\ s_frames (rt (x m).1) = ∅.
Proof using HE HP.
  induction 1 as [y _ IH]. intros n Hat Eh.
  destruct (decide (s_frames (rt (x n).1) = ∅)) as [|Hne]; [by exists n|].
  assert (Hl : later n y.1).
  { pose proof Hat as (Q & H & M). pose proof M as [HR Es HH HO HT HF].
    destruct (progress_own _ _ _ _ HR) as (i & w & Hw & [Hen|(E1 & E2 & E3)]); [by rewrite Es| |].
    - eapply (works i y.1 Hen (S (mu i (x n).1)) n); [lia|done].
    - eapply (takes i y.1 w Hw E1 E2 E3 n K (S (mu i (x n).1)) n); [lia|intros j; lia|lia|lia|done]. }
  destruct Hl as (m & Hm & s' & Q & H & M & Hmv). rewrite Eh in Hmv.
  destruct (IH (s', (x m).2)) with (n := m) as (m' & Hle & Hf); [by destruct y|by exists Q, H|done|].
  exists m'. split; [lia|done].
Qed.

(** Every state is a state of the runtime on atomic deques; once no task is left there is none. *)
Lemma always n s : at_ n s -> exists s', at_ (S n) s' /\ (s_frames s = ∅ -> s_frames s' = ∅) /\
  exists tr, (x (S n)).2 = rev tr ++ (x n).2.
Proof using HE.
  intros Hat. pose proof (HE n) as He. destruct (c n) as [l|]; cycle 1.
  { exists s. unfold at_. rewrite He. split; [done|]. split; [done|]. by exists []. }
  destruct He as (Hal & Hns & tr & Hs & Eh). destruct Hat as (Q & H & M).
  destruct (sim_fstep _ _ _ _ _ _ _ _ _ M Hal) as (_ & Hx). destruct (Hx _ _ Hs) as (s' & Q' & H' & M' & Hc).
  exists s'. split; [exists Q', H'; by rewrite Eh|]. split; [|by exists tr].
  destruct Hc as [(-> & _)|(l' & Hl & Ha & Hst)]; [done|].
  apply (moves_empty af nw (s, (x n).2) (s', rev tr ++ (x n).2)).
  - apply (m_reach _ _ _ _ _ _ _ _ M).
  - exists l', tr. split_and!; try done. intros d t ->. destruct l; naive_solver.
Qed.
End endless.
