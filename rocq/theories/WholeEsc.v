(** * lazy_pool: liveness when workers may be busy with something else.

    As LazyLive.v and LazyLive2.v, except that a worker need not make a step of the pool if
    something else, [Esc], happens instead; then the conclusions hold or [Esc] happens. *)

From stdpp Require Import prelude list.
From Coq Require Import Lia.
From Verif Require Import PoolCommon PoolFair LazyModel LazyProofs LazyInv LazyThief LazySpec LazyLive LazyLive2.

Section Live.
Context (n nd : nat) (dom : nat -> nat).
Notation worker := (worker n nd dom).
Notation step := (step n nd dom).
Notation cinv := (cinv n dom).
Notation finv := (finv n nd dom).
Notation jinv := (jinv n dom).
Notation tinv := (tinv n nd dom).
Notation binv := (binv nd).
Notation stuck := (stuck n nd dom).
Notation rk := (rk nd).
Notation alert := (alert dom).

(** The worker is about to look at its list. *)
Definition pops (p : wpc) : Prop := match p with WPop1 | WPop2 _ => True | _ => False end.

Lemma worker_queue' w c s s' tr j : binv s -> ~ pops (pc s w) -> worker w c s = Next s' tr -> j ∈ q s w -> alert w s ->
  exiting (pc s' w) \/
  (q s' w = q s w /\ alert w s' /\ rk (pc s' w) < rk (pc s w)).
Proof.
  intros B Hpop Hs Hj Ha. pose proof (B w) as Bw. unfold alert in Ha. unfold LazyModel.worker, ret, notify, unregister, thief_sub in Hs.
  destruct (pc s w) eqn:Hp; try done; try (by destruct Hpop).
  all: try (repeat case_match; try done; simplify_eq; unfold alert; simpl; rewrite !fset_eq; simpl; try (by left); right; (split_and!; [done|done|lia])).
  - destruct (wake_one _ _ _ _ _) as [s1|] eqn:Hwk; [|done]. injection Hs as <- <-. right. unfold alert. simpl. rewrite fset_eq. simpl.
    apply wake_one_classes in Hwk as (_ & _ & _ & _ & _ & _ & _ & Eq & _). split_and!; [by rewrite Eq|done|lia].
  - right. specialize (Bw h d (or_introl eq_refl)). repeat case_match; try done; simplify_eq; unfold alert; simpl; rewrite !fset_eq; simpl; (split_and!; [done|done|lia]).
  - right. specialize (Bw h d (or_intror eq_refl)). destruct (wake_one _ _ _ _ _) as [s1|] eqn:Hwk; [|done]. injection Hs as <- <-.
    unfold alert. simpl. rewrite fset_eq. simpl. apply wake_one_classes in Hwk as (_ & _ & _ & _ & _ & _ & _ & Eq & _). split_and!; [by rewrite Eq|done|lia].
Qed.

Context (Esc : nat -> Prop).

Record fairE (sg : nat -> st) (l : nat -> option lab) : Prop := FairE {
  fe_run : run step init sg l;
  fe_worker : forall w i, w < n -> exists j, i <= j /\ (Esc j \/ (exists c, l j = Some (LWorker w c)) \/ stuck w (sg j));
  fe_pop : forall w i c, l i = Some (LWorker w c) -> pops (pc (sg i) w) -> q (sg i) w <> [] -> Esc i;
  fe_agent : forall a i, ag (sg i) a <> AIdle -> exists j w k, i <= j /\ l j = Some (LAgent a w k)
}.

Context (sg : nat -> st) (l : nat -> option lab) (HF : fairE sg l).
Notation acts := (acts n nd dom sg l).

Lemma run_reach i : exists h, reach n nd dom (sg i) h.
Proof.
  induction i as [|i [h IH]].
  - exists []. rewrite (run_init _ _ _ _ (fe_run _ _ HF)). constructor.
  - pose proof (run_step _ _ _ _ (fe_run _ _ HF) i) as Hs. rewrite Nat.add_1_r in Hs. destruct (l i) as [x|].
    + destruct Hs as [tr Hs]. eexists. by econstructor.
    + rewrite Hs. eauto.
Qed.
Lemma run_inv i : cinv (sg i) /\ finv (sg i) /\ jinv (sg i) /\ tinv (sg i).
Proof. destruct (run_reach i) as [h Hr]. by eapply reach_all. Qed.
Lemma run_binv i : binv (sg i).
Proof.
  induction i as [|i IH].
  - rewrite (run_init _ _ _ _ (fe_run _ _ HF)). intros u h j [?|?]; done.
  - pose proof (run_step _ _ _ _ (fe_run _ _ HF) i) as Hs. rewrite Nat.add_1_r in Hs. destruct (l i) as [x|].
    + destruct Hs as [tr Hs]. by eapply step_binv.
    + by rewrite Hs.
Qed.

(** What happens at time [i], seen from worker [w]. *)
Lemma tick i w : (exists c tr, l i = Some (LWorker w c) /\ worker w c (sg i) = Next (sg (i + 1)) tr /\
                    step (LWorker w c) (sg i) = Next (sg (i + 1)) tr) \/
  (exists x tr, l i = Some x /\ notw w x /\ step x (sg i) = Next (sg (i + 1)) tr) \/
  sg (i + 1) = sg i.
Proof.
  pose proof (run_step _ _ _ _ (fe_run _ _ HF) i) as Hs. destruct (l i) as [x|] eqn:Hl; [|by auto].
  destruct Hs as [tr Hs]. assert ((exists c, x = LWorker w c) \/ notw w x) as [[c ->]|Hn].
  { destruct x as [v c| | |]; simpl; auto. destruct (decide (v = w)) as [->|]; eauto. }
  - left. exists c, tr. split; [done|]. split; [|done]. simpl in Hs. by case_decide.
  - right. left. eauto.
Qed.

(** Worker [w], in a state where it is not asleep and where [R] is kept by all other
    threads, eventually makes a step (or [Esc] happens). *)
Lemma worker_acts w i (R : nat -> Prop) :
  w < n -> R i ->
  (forall k, i <= k -> R k -> (exists key, pc (sg k) w = WBlocked key) \/ (pc (sg k) w = XLatch /\ arrived (sg k) <> n) \/ pc (sg k) w = XDone -> False) ->
  (forall k, i <= k -> R k -> (forall x tr, l k = Some x -> notw w x -> step x (sg k) = Next (sg (k + 1)) tr -> R (k + 1)) /\
                   (sg (k + 1) = sg k -> R (k + 1))) ->
  exists j, i <= j /\ (Esc j \/ (R j /\ acts w j)).
Proof.
  intros Hw HR Hns Hoth.
  destruct (until R (fun _ => False) (fun k => Esc k \/ acts w k \/ stuck w (sg k)) i) as (j & Hj & [[]|[HRj HX]]).
  - intros k Hk HRk. destruct (tick k w) as [(c & tr & Hl & Hs & _)|[(x & tr & Hl & Hn & Hs)|He]].
    + left. right. left. exists c, tr. done.
    + right. left. by eapply (proj1 (Hoth k Hk HRk)).
    + right. left. by apply (proj2 (Hoth k Hk HRk)).
  - done.
  - destruct (fe_worker _ _ HF w i Hw) as (j & Hj & [HE|[(c & Hl)|Hst]]); exists j; (split; [done|]).
    + by left.
    + right. left. pose proof (run_step _ _ _ _ (fe_run _ _ HF) j) as Hs. rewrite Hl in Hs. destruct Hs as [tr Hs].
      exists c, tr. split; [done|]. simpl in Hs. by case_decide.
    + by right; right.
  - exists j. split; [done|]. destruct HX as [?|[?|Hst]]; [by left|by right|]. destruct (run_inv j) as [C _].
    exfalso. apply (Hns j Hj HRj). by eapply stuck_pc.
Qed.

(** A worker that cannot be stuck at its pc makes its step from there. *)
Lemma acts_at w i p : w < n -> pc (sg i) w = p -> (forall k, p <> WBlocked k) -> p <> XLatch -> p <> XDone ->
  exists j, i <= j /\ (Esc j \/ (pc (sg j) w = p /\ acts w j)).
Proof.
  intros Hw Hp H1 H2 H3. apply (worker_acts w i (fun k => pc (sg k) w = p)); [done|done|..].
  - intros k Hk HR [(key & E)|[[E _]|E]]; rewrite HR in E; [by eapply H1|by apply H2|by apply H3].
  - intros k Hk HR. split.
    + intros x tr Hl Hn Hs. destruct (other_pc n nd dom w x _ _ _ Hs Hn) as [E|(key & E & _)]; [congruence|].
      rewrite HR in E. by destruct (H1 key).
    + intros E. by rewrite E.
Qed.

(** A worker that has got something to resume gets to the point where it resumes it. *)
Lemma handle_arrives w h : w < n -> forall r i, rk (pc (sg i) w) <= r -> hof (pc (sg i) w) = Some h ->
  exists k, i <= k /\ (Esc k \/ pc (sg k) w = TRun h).
Proof.
  intros Hw. induction r as [|r IH]; intros i Hr Hh.
  - destruct (pc (sg i) w); simpl in *; try done; lia.
  - assert (pc (sg i) w = TRun h \/ pc (sg i) w <> TRun h) as [Hrun|Hrun]; [|by exists i; auto|].
    { destruct (pc (sg i) w); simpl in Hh; try (by right). injection Hh as ->. by left. }
    destruct (acts_at w i (pc (sg i) w) Hw eq_refl) as (j & Hj & [HE|[Hp (c & tr & Hl & Hs)]]); [intros k E; by rewrite E in Hh|intros E; by rewrite E in Hh..|by exists j; auto|].
    rewrite <- Hp in Hh, Hr, Hrun. destruct (worker_handle n nd dom w c _ _ _ h (run_binv j) Hs Hh) as [He|[Hh' Hr']].
    + exfalso. unfold LazyModel.worker, ret, notify, unregister, thief_sub in Hs.
      destruct (pc (sg j) w); try done; simpl in Hh; repeat case_match; try done; simplify_eq; by apply elem_of_nil in He.
    + destruct (IH (j + 1)) as (k & Hk & He); [lia|done|]. exists k. split; [lia|done].
Qed.

Lemma key_le i w k : w < n -> keyof (pc (sg i) w) = Some k -> k <= epoch (sg i) (dom w).
Proof. intros Hw Hk. destruct (run_inv i) as [C _]. by eapply ci_key. Qed.

(** Others do not disturb an alert worker's progress. *)
Lemma other_alert w x i tr : w < n -> notw w x -> step x (sg i) = Next (sg (i + 1)) tr -> alert w (sg i) -> alert w (sg (i + 1)).
Proof.
  intros Hw Hn Hs Ha. unfold alert in *. pose proof (epoch_mono n nd dom x _ _ _ (dom w) Hs) as He.
  pose proof (key_le i w) as Hk.
  destruct (other_pc n nd dom w x _ _ _ Hs Hn) as [E|(k & E & E')].
  - rewrite E. destruct (pc (sg i) w); try done; specialize (Hk _ Hw eq_refl); lia.
  - rewrite E'. rewrite E in Ha, Hk. specialize (Hk _ Hw eq_refl). lia.
Qed.

Lemma other_job w x i tr j : notw w x -> step x (sg i) = Next (sg (i + 1)) tr -> j ∈ q (sg i) w -> j ∈ q (sg (i + 1)) w.
Proof. intros Hn Hs Hj. destruct (other_q n nd dom w x _ _ _ Hs Hn) as [E|(j' & E & _)]; rewrite E; [done|]. apply elem_of_app. by left. Qed.

(** A submitting thread makes its next step. *)
Lemma agent_acts a i (R G : nat -> Prop) :
  R i -> (forall k, i <= k -> R k -> ag (sg k) a <> AIdle) ->
  (forall k, i <= k -> R k -> (forall x tr, l k = Some x -> nota a x -> step x (sg k) = Next (sg (k + 1)) tr -> R (k + 1) \/ G (k + 1)) /\
                   (sg (k + 1) = sg k -> R (k + 1) \/ G (k + 1))) ->
  exists j, i <= j /\ (G j \/ (R j /\ exists w x tr, l j = Some (LAgent a w x) /\ agent n dom a w x (sg j) = Next (sg (j + 1)) tr)).
Proof.
  intros HR Hni Hoth.
  destruct (until R G (fun k => exists w x tr, l k = Some (LAgent a w x) /\ agent n dom a w x (sg k) = Next (sg (k + 1)) tr) i) as (j & Hj & H); [..|by eauto].
  - intros k Hk HRk. pose proof (run_step _ _ _ _ (fe_run _ _ HF) k) as Hs. destruct (l k) as [x|] eqn:Hl.
    + destruct Hs as [tr Hs]. assert ((exists w y, x = LAgent a w y) \/ nota a x) as [(w & y & ->)|Hn].
      { destruct x as [|b w y| |]; simpl; auto. destruct (decide (b = a)) as [->|]; eauto. }
      * left. exists w, y, tr. done.
      * right. by eapply (proj1 (Hoth k Hk HRk)).
    + right. by apply (proj2 (Hoth k Hk HRk)).
  - done.
  - destruct (fe_agent _ _ HF a i (Hni i ltac:(lia) HR)) as (j & w & x & Hj & Hl). exists j. split; [done|].
    pose proof (run_step _ _ _ _ (fe_run _ _ HF) j) as Hs. rewrite Hl in Hs. destruct Hs as [tr Hs]. exists w, x, tr. done.
Qed.

(** From time [i] on, something else happens or the pool is stopped. *)
Definition ev (i : nat) : Prop := exists m, i <= m /\ (Esc m \/ stop (sg m) = true).
Lemma ev_le i j : i <= j -> ev j -> ev i.
Proof. intros Hij (m & Hm & H). exists m. split; [lia|done]. Qed.

(** The job stays in the queue until the worker takes it. *)
Lemma job_tick w i j : w < n -> j ∈ q (sg i) w -> j ∈ q (sg (i + 1)) w \/ Esc i.
Proof.
  intros Hw Hj. destruct (tick i w) as [(c & tr & Hl & Hs & Hst)|[(x & tr & Hl & Hn & Hs)|He]].
  - assert (q (sg i) w <> []) as Hne by (intros E; rewrite E in Hj; by apply elem_of_nil in Hj).
    unfold LazyModel.worker, ret, notify, unregister, thief_sub in Hs.
    destruct (pc (sg i) w) eqn:Hp.
    all: try (left; repeat case_match; try done; simplify_eq;
      match goal with H : _ = ?f (_ + 1) |- _ => rewrite <- H end; simpl; rewrite ?fset_ne; done).
    all: try (right; apply (fe_pop _ _ HF w i c); [done|by rewrite Hp|done]).
    1,2: (left; destruct (wake_one _ _ _ _ _) as [s1|] eqn:Hwk; [|done]; injection Hs as Hs _; rewrite <- Hs; simpl;
      apply wake_one_classes in Hwk as (_ & _ & _ & _ & _ & _ & _ & Eq & _); by rewrite Eq).
  - left. by eapply other_job.
  - left. by rewrite He.
Qed.

Lemma exiting_stop w i : w < n -> exiting (pc (sg i) w) -> stop (sg i) = true.
Proof. intros Hw He. destruct (run_inv i) as (_ & F & _). apply (fi_stop _ _ _ _ F). left. eauto. Qed.

(** Blocked with a job and notified: a submitting thread is about to wake the worker. *)
Lemma unblocks w j i : w < n -> j ∈ q (sg i) w -> alert w (sg i) -> (exists k, pc (sg i) w = WBlocked k) ->
  exists k, i <= k /\ (j ∈ q (sg k) w /\ alert w (sg k) /\ exists key, pc (sg k) w = WWait key).
Proof.
  intros Hw Hj Ha [key Hb].
  set (R := fun k => j ∈ q (sg k) w /\ alert w (sg k) /\ exists key, pc (sg k) w = WBlocked key).
  set (G := fun k => j ∈ q (sg k) w /\ alert w (sg k) /\ exists key, pc (sg k) w = WWait key).
  assert (forall k x tr, R k -> notw w x -> step x (sg k) = Next (sg (k + 1)) tr -> R (k + 1) \/ G (k + 1)) as Hoth.
  { intros k x tr (HR1 & HR2 & key' & HR3) Hn Hs.
    pose proof (other_job w x k tr j Hn Hs HR1) as HJ. pose proof (other_alert w x k tr Hw Hn Hs HR2) as HA.
    destruct (other_pc n nd dom w x _ _ _ Hs Hn) as [E|(k' & E & E')]; [left|right]; (split_and!; [done|done|]).
    - exists key'. congruence.
    - exists k'. done. }
  assert (forall k, R k -> forall c tr, worker w c (sg k) <> Next (sg (k + 1)) tr) as Hnw.
  { intros k (_ & _ & key' & E) c tr. unfold LazyModel.worker. by rewrite E. }
  (* one agent's turn *)
  assert (forall a i x, R i -> ag (sg i) a = x -> x <> AIdle ->
    exists k, i <= k /\ (G k \/ (R k /\ ag (sg k) a = x /\ exists u y tr, l k = Some (LAgent a u y) /\ agent n dom a u y (sg k) = Next (sg (k + 1)) tr))) as Hag.
  { intros a i0 x HR Hx Hne.
    destruct (agent_acts a i0 (fun k => R k /\ ag (sg k) a = x) G) as (k & Hk & [HG|[[HRk Hxk] Hs]]); [done|..|by eauto|by eauto 10].
    - intros k _ [_ E]. by rewrite E.
    - intros k _ [HRk E]. split.
      + intros y tr Hl Hn Hs. assert (notw w y) as Hnw'.
        { destruct y as [u c| | |]; simpl; auto. intros ->. simpl in Hs. case_decide; [|done]. by eapply Hnw. }
        destruct (Hoth k y tr HRk Hnw' Hs) as [?|?]; [left|by right]. split; [done|]. rewrite (other_ag n nd dom a y _ _ _ Hs Hn). done.
      + intros E'. left. unfold R. by rewrite E'. }
  assert (forall i, R i -> (exists a, ag (sg i) a = AWake (dom w)) -> exists k, i <= k /\ G k) as Hwake.
  { intros i0 HR [a Hx]. destruct (Hag a i0 _ HR Hx) as (k & Hk & [HG|(HRk & Hxk & u & y & tr & Hl & Hs)]); [done|by eauto|].
    exists (k + 1). split; [lia|]. assert (step (LAgent a u y) (sg k) = Next (sg (k + 1)) tr) as Hst by done.
    destruct (Hoth k (LAgent a u y) tr HRk ltac:(done) Hst) as [(HR1 & HR2 & key' & E)|]; [|done]. exfalso.
    unfold agent, ret in Hs. rewrite Hxk in Hs. injection Hs as Hs _. rewrite <- Hs in E. simpl in E. rewrite decide_True in E by done.
    by destruct (pc (sg k) w). }
  assert (R i) as HR by (split_and!; eauto).
  destruct (run_inv i) as (_ & _ & J & _). destruct (J w Hw) as [_ J2]; [intros E; rewrite E in Hj; by apply elem_of_nil in Hj|].
  destruct (J2 key Hb) as [[a Hx]|[_ Hx]].
  - destruct (Hag a i _ HR Hx) as (k & Hk & [HG|(HRk & Hxk & u & y & tr & Hl & Hs)]); [done|by eauto|].
    assert (step (LAgent a u y) (sg k) = Next (sg (k + 1)) tr) as Hst by done.
    destruct (Hoth k (LAgent a u y) tr HRk ltac:(done) Hst) as [HR'|HG]; [|exists (k + 1); split; [lia|auto]].
    destruct (Hwake (k + 1) HR') as (k' & Hk' & HG); [|exists k'; split; [lia|auto]].
    exists a. unfold agent, ret, notify in Hs. rewrite Hxk in Hs. injection Hs as Hs _. rewrite <- Hs. simpl. rewrite fset_eq.
    destruct HRk as (_ & _ & key' & E). destruct (run_inv k) as (C & _).
    assert (0 < waiters (sg k) (dom w)) by (apply (reg_pos n dom w _ Hw C); by rewrite E). by rewrite bool_decide_false by lia.
  - destruct (Hwake i HR Hx) as (k & Hk & HG). eauto.
Qed.

(** From an alert state. *)
Lemma queue_taken w j : w < n -> forall r i, rk (pc (sg i) w) <= r -> j ∈ q (sg i) w -> alert w (sg i) -> ev i.
Proof.
  intros Hw.
  assert (forall i, j ∈ q (sg i) w -> alert w (sg i) ->
            exists k, i <= k /\ (ev i \/ (j ∈ q (sg k) w /\ alert w (sg k) /\ rk (pc (sg k) w) < rk (pc (sg i) w)))) as Hstep.
  { intros i Hj Ha.
    assert ((exists k, pc (sg i) w = WBlocked k) \/ exiting (pc (sg i) w) \/
            (forall k, pc (sg i) w <> WBlocked k) /\ pc (sg i) w <> XLatch /\ pc (sg i) w <> XDone) as [Hb|[Hx|(H1 & H2 & H3)]].
    { destruct (pc (sg i) w); simpl; eauto; right; right; done. }
    - destruct (unblocks w j i Hw Hj Ha Hb) as (k & Hk & Hj' & Ha' & key & E). exists k. split; [done|]. right.
      destruct Hb as [key' E']. rewrite E, E'. simpl. split_and!; [done|done|lia].
    - exists i. split; [lia|]. left. exists i. split; [lia|]. right. by eapply exiting_stop.
    - destruct (worker_acts w i (fun k => pc (sg k) w = pc (sg i) w /\ j ∈ q (sg k) w /\ alert w (sg k))) as (k & Hk & [HE|[(Hp & Hjk & Hak) HX]]); [done|done|..|exists k; split; [done|left; exists k; auto]|].
      + intros k _ [E _] Hs. rewrite E in Hs. destruct Hs as [[key Hs]|[[Hs _]|Hs]]; [by eapply H1|done|done].
      + intros k _ (E & Hjk & Hak). split.
        * intros x tr _ Hn Hs. split_and!; [|by eapply other_job|by eapply other_alert].
          destruct (other_pc n nd dom w x _ _ _ Hs Hn) as [E'|(key & E' & _)]; [congruence|]. rewrite E in E'. by destruct (H1 key).
        * intros E'. by rewrite E'.
      + destruct HX as (c & tr & Hl & Hs). exists (k + 1). split; [lia|].
        assert (pops (pc (sg k) w) \/ ~ pops (pc (sg k) w)) as [Hpop|Hpop] by (destruct (pc (sg k) w); simpl; auto).
        * left. exists k. split; [lia|]. left. apply (fe_pop _ _ HF w k c Hl Hpop). intros E. rewrite E in Hjk. by apply elem_of_nil in Hjk.
        * destruct (worker_queue' w c _ _ _ j (run_binv k) Hpop Hs Hjk Hak) as [Hx|(Eq & Ha' & Hr)].
          -- left. exists (k + 1). split; [lia|]. right. by eapply exiting_stop.
          -- right. rewrite Eq. rewrite Hp in Hr. done. }
  induction r as [r IH] using lt_wf_ind. intros i Hr Hj Ha.
  destruct (Hstep i Hj Ha) as (k & Hk & [Hg|(Hj' & Ha' & Hr')]); [done|].
  pose proof (IH (rk (pc (sg k) w)) ltac:(lia) k ltac:(lia) Hj' Ha') as Hg. by eapply ev_le.
Qed.

(** A worker with a job becomes alert. *)
Lemma becomes_alert w j i : w < n -> j ∈ q (sg i) w -> exists k, i <= k /\ (ev i \/ (j ∈ q (sg k) w /\ alert w (sg k))).
Proof.
  intros Hw Hj.
  assert (alert w (sg i) \/ exists a, ag (sg i) a = APushed w) as [Ha|[a Hx]]; [|by eauto|].
  { destruct (run_inv i) as (_ & _ & J & _). destruct (J w Hw) as [J1 J2]; [intros E; rewrite E in Hj; by apply elem_of_nil in Hj|].
    unfold alert. destruct (pc (sg i) w) eqn:Hp; try (by left); try (by apply J1). destruct (J2 k eq_refl) as [?|[? _]]; auto. }
  destruct (agent_acts a i (fun k => j ∈ q (sg k) w /\ ag (sg k) a = APushed w) (fun _ => ev i)) as (k & Hk & [HG|[[Hjk Hxk] (u & y & tr & Hl & Hs)]]); [done|..].
  - intros k _ [_ E]. by rewrite E.
  - intros k Hik [Hjk E]. split.
    + intros x tr Hl Hn Hs. destruct (job_tick w k j Hw Hjk) as [?|?]; [left|right; exists k; auto]. split; [done|]. by rewrite (other_ag n nd dom a x _ _ _ Hs Hn).
    + intros E'. left. by rewrite E'.
  - exists k. split; [done|by left].
  - exists (k + 1). split; [lia|]. right. unfold agent, ret, notify in Hs. rewrite Hxk in Hs. injection Hs as Hs _. rewrite <- Hs. simpl.
    split; [done|]. unfold alert. simpl. rewrite fset_eq. pose proof (key_le k w) as Hkl.
    destruct (pc (sg k) w); try done; specialize (Hkl _ Hw eq_refl); lia.
Qed.

(** A job in the list of a worker is taken, unless the pool is stopped. *)
Theorem job_taken w j i : w < n -> j ∈ q (sg i) w -> ev i.
Proof.
  intros Hw Hj. destruct (becomes_alert w j i Hw Hj) as (k & Hk & [Hg|[Hjk Ha]]); [done|].
  pose proof (queue_taken w j Hw _ k (le_n _) Hjk Ha) as Hg. by eapply ev_le.
Qed.
End Live.
