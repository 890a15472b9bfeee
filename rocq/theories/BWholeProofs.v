(** * Programs on busy_pool and unit_pool: fair executions. *)

From stdpp Require Import prelude gmap list.
From Coq Require Import NArith Lia.
From Verif Require Import PoolCommon PoolFair BusyModel BusySpec BusyProofs BusyLive BWholeModel BWholeSpec BWholeInv.
From Verif Require RuntimeModel RuntimeSpec RuntimeInv RuntimeSafe RuntimeHist4 RuntimeThms RuntimeTermSpec RuntimeTerm3 WholeRt.

Section Proofs.
Context (n : nat) (unit : bool) (af : bool).
Notation winv := (winv n unit af).
Notation whole_step := (whole_step n unit).
Notation legal := (legal n af).

(** ** Single steps *)

Lemma worker_at x w : winv x -> w < n -> exists wk, rworkers (rt x) !! w = Some wk.
Proof. intros I Hw. apply lookup_lt_is_Some. by rewrite (wi_len _ _ _ _ I). Qed.

Lemma take_enabled x w : winv x -> w < n -> ~ busy (pc (pool x) w) -> q (pool x) w <> [] ->
  exists r', rstep (RuntimeModel.LTake w) (rt x) = RuntimeModel.Next r' [].
Proof.
  intros I Hw Hh Hq. destruct (worker_at x w I Hw) as (wk & Hk). pose proof (wi_q _ _ _ _ I w wk Hk) as Eq.
  destruct (wi_agree _ _ _ _ I w wk Hk Hh) as [E1 E2].
  simpl. unfold RuntimeModel.take. rewrite Hk, E1, E2. destruct (RuntimeModel.w_inbox wk); simpl in Eq; [by rewrite <- Eq in Hq|]. eauto.
Qed.

Lemma work_next x w c v fail : winv x -> busy (pc (pool x) w) -> resting (rt x) w = false -> (fail = true -> af = true) ->
  exists x', whole_step (XWorker w c v fail) x = WNext x'.
Proof.
  intros I Hp Hr Hf. destruct (WholeRt.work_enabled n af _ _ w fail (wi_rt _ _ _ _ I) Hf Hr) as (r' & tr & E).
  assert (parts (XWorker w c v fail) x = (match moving (rt x) w with Some (d, f) => Some (LPush d (N.to_nat f)) | None => None end, Some (RuntimeModel.LWork w fail))) as Hpt.
  { simpl. destruct (pc (pool x) w); try done; by rewrite Hr. }
  unfold BWholeModel.whole_step. rewrite Hpt. cbn [fst snd rt_part RuntimeModel.step]. rewrite E.
  destruct (moving (rt x) w) as [[d f]|] eqn:Em; simpl; [|eauto].
  rewrite decide_True; [eauto|]. destruct (rworkers (rt x) !! w) as [wk|] eqn:Hk; [|unfold WholeModel.moving in Em; by rewrite Hk in Em].
  destruct (WholeRt.wstep_workers w fail _ _ _ wk Hk E) as (w' & _ & E'). rewrite Em in E'. destruct E' as (wd & Hd & _).
  apply lookup_lt_Some in Hd. rewrite insert_length in Hd. by rewrite (wi_len _ _ _ _ I) in Hd.
Qed.

(** A worker thread that cannot make a step has left. *)
Lemma blocked_left x w : winv x -> w < n ->
  (forall c v fail, legal (XWorker w c v fail) -> whole_step (XWorker w c v fail) x = WBlock) ->
  left (pc (pool x) w) /\ forall c, BusyModel.step n unit (LWorker w c) (pool x) = Blocked.
Proof.
  intros I Hw Hb. assert (forall c v, whole_step (XWorker w c v false) x = WBlock) as Hb' by (intros c v; by apply Hb). clear Hb.
  pose proof (Hb' false 0) as Hf. unfold BWholeModel.whole_step in Hf. simpl in Hf.
  destruct (pc (pool x) w) eqn:Hp.
  4,6: (exfalso; destruct (resting (rt x) w) eqn:Hr; simpl in Hf;
    [rewrite decide_True in Hf by done; unfold BusyModel.worker in Hf; by rewrite Hp in Hf
    |destruct (work_next x w false 0 false I) as [x' E]; [by rewrite Hp|done|done|by rewrite Hb' in E]]).
  2,4: (exfalso; destruct (q (pool x) w) as [|j js] eqn:Hq;
    [simpl in Hf; rewrite decide_True in Hf by done; unfold BusyModel.worker in Hf; by rewrite Hp, Hq in Hf
    |destruct (take_enabled x w I Hw) as (r' & E); [rewrite Hp; intros []|by rewrite Hq|]; cbn [fst snd pool_part rt_part] in Hf; rewrite E in Hf;
     simpl in Hf; rewrite decide_True in Hf by done; unfold BusyModel.worker in Hf; by rewrite Hp, Hq in Hf]).
  all: simpl in Hf; rewrite decide_True in Hf by done; unfold BusyModel.worker in Hf; rewrite Hp in Hf; simpl in Hf; try done.
  - split; [done|]. intros c. simpl. rewrite decide_True by done. unfold BusyModel.worker. rewrite Hp. by case_decide.
  - split; [done|]. intros c. simpl. rewrite decide_True by done. unfold BusyModel.worker. by rewrite Hp.
Qed.

Lemma other_pc w x s s' tr : BusyModel.step n unit x s = Next s' tr -> notw w x -> pc s' w = pc s w.
Proof.
  intros Hs Hn. destruct x as [u c|u j| |]; simpl in Hs, Hn.
  - case_decide; [|done]. unfold BusyModel.worker in Hs. repeat case_match; try done; injection Hs as <- <-; simpl; by rewrite fset_ne.
  - case_decide; [|done]. by injection Hs as <- <-.
  - by injection Hs as <- <-.
  - repeat case_match; try done. by injection Hs as <- <-.
Qed.

(** ** Executions *)

Context (sg : nat -> whole) (l : nat -> option wlab) (HW : wfair n unit af sg l).

Definition pl (k : nat) : option lab := match l k with Some x => (parts x (sg k)).1 | None => None end.
Definition rl (k : nat) : option RuntimeModel.label := match l k with Some x => (parts x (sg k)).2 | None => None end.
Notation psg := (fun k => pool (sg k)).
Definition Esc (k : nat) : Prop := rl k <> None.

Lemma whole_tick k : (exists trp, pool_part n unit (pl k) (pool (sg k)) = Next (pool (sg (k + 1))) trp) /\
  (exists tr, rt_part (rl k) (rt (sg k)) = RuntimeModel.Next (rt (sg (k + 1))) tr /\ hist (sg (k + 1)) = rev tr ++ hist (sg k)) /\
  (forall r, rl k = Some r -> RuntimeSpec.allowed n af r).
Proof.
  pose proof (wr_step _ _ _ _ _ (wf_run _ _ _ _ _ HW) k) as Hs. unfold pl, rl. destruct (l k) as [x|].
  - destruct Hs as (Hl & _ & Hs). apply step_inv in Hs as (trp & tr & H1 & H2 & H3). split_and!; [eauto|eauto|].
    intros r0 Hr. by eapply parts_allowed.
  - rewrite Hs. split_and!; [by eexists|by eexists|done].
Qed.

Lemma run_dreach k : dreach n unit af (sg k).
Proof.
  induction k as [|k IH]; [rewrite (wr_init _ _ _ _ _ (wf_run _ _ _ _ _ HW)); constructor|].
  pose proof (wr_step _ _ _ _ _ (wf_run _ _ _ _ _ HW) k) as Hs. rewrite Nat.add_1_r in Hs. destruct (l k) as [x|].
  - destruct Hs as (Hl & Hd & Hs). by econstructor.
  - by rewrite Hs.
Qed.
Lemma run_winv k : winv (sg k).
Proof. apply wreach_winv, dreach_wreach, run_dreach. Qed.
Lemma run_linv k : linv (sg k).
Proof. eapply dreach_linv, run_dreach. Qed.

Lemma pool_run : run (BusyModel.step n unit) init psg pl.
Proof.
  split; [by rewrite (wr_init _ _ _ _ _ (wf_run _ _ _ _ _ HW))|]. intros k. destruct (whole_tick k) as [[trp H] _].
  destruct (pl k); simpl in H; [by eauto|]. by injection H.
Qed.

Lemma esc_dec k : Esc k \/ rl k = None.
Proof. unfold Esc. destruct (rl k); [by left|by right]. Qed.
Lemma esc_same k : rl k = None -> rt (sg (k + 1)) = rt (sg k) /\ hist (sg (k + 1)) = hist (sg k).
Proof. intros E. destruct (whole_tick k) as (_ & (tr & H & H') & _). rewrite E in H. simpl in H. injection H as H <-. done. Qed.

Lemma other_tick w k : w < n -> rl k = None -> (forall c v fail, l k <> Some (XWorker w c v fail)) ->
  pc (pool (sg (k + 1))) w = pc (pool (sg k)) w.
Proof.
  intros Hw Hr Hn. destruct (whole_tick k) as [[trp H] _]. destruct (pl k) as [y|] eqn:Hp; simpl in H; [|by injection H as ->].
  eapply other_pc; [exact H|]. unfold pl in Hp. destruct (l k) as [z|]; [|done]. destruct z as [u c v fail|d t| | |u]; simpl in Hp; [|by injection Hp as <-..|done].
  assert (u <> w) as Hne by (intros ->; by eapply Hn). destruct (pc (pool (sg k)) u); try (by injection Hp as <-).
  all: destruct (resting (rt (sg k)) u); [by injection Hp as <-|]; destruct (moving (rt (sg k)) u) as [[??]|]; [by injection Hp as <-|done].
Qed.

(** Without steps of the runtime the submission lists stay as they are. *)
Lemma same_q i j w : w < n -> rt (sg j) = rt (sg i) -> q (pool (sg j)) w = q (pool (sg i)) w.
Proof.
  intros Hw E. destruct (worker_at _ w (run_winv i) Hw) as [wk Hk]. rewrite <- (wi_q _ _ _ _ (run_winv i) w wk Hk).
  symmetry. apply (wi_q _ _ _ _ (run_winv j)). by rewrite E.
Qed.

Lemma label_dec w k : (exists c v fail, l k = Some (XWorker w c v fail)) \/ (forall c v fail, l k <> Some (XWorker w c v fail)).
Proof. destruct (l k) as [[u c v fail| | | |]|]; try (by right). destruct (decide (u = w)) as [->|]; [left; eauto|right]. intros ??? [=]. done. Qed.

(** The next step of worker [w], or a step of the runtime before it. *)
Lemma next_turn w i : w < n -> ~ left (pc (pool (sg i)) w) ->
  exists j, i <= j /\ (Esc j \/ (pc (pool (sg j)) w = pc (pool (sg i)) w /\ rt (sg j) = rt (sg i) /\ exists c v fail, l j = Some (XWorker w c v fail))).
Proof.
  intros Hw Hnl.
  destruct (until (fun k => pc (pool (sg k)) w = pc (pool (sg i)) w /\ rt (sg k) = rt (sg i)) (fun _ => False)
    (fun k => Esc k \/ (exists c v fail, l k = Some (XWorker w c v fail)) \/ left (pc (pool (sg k)) w)) i) as (j & Hj & [[]|[[HR1 HR2] HX]]).
  - intros k Hk [H1 H2]. destruct (esc_dec k) as [He|He]; [by left; left|]. destruct (label_dec w k) as [?|Hn]; [by left; right; left|].
    right. left. split; [by rewrite other_tick|]. by rewrite (proj1 (esc_same k He)).
  - done.
  - destruct (wf_worker _ _ _ _ _ HW w i Hw) as (j & Hj & [?|Hb]); exists j; (split; [done|]); [by right; left|right; right].
    by apply (blocked_left (sg j) w (run_winv j) Hw Hb).
  - exists j. split; [done|]. destruct HX as [He|[Hl|Hl]]; [by left|by right|]. rewrite HR1 in Hl. done.
Qed.

Lemma busy_escapes w i : w < n -> resting (rt (sg i)) w = false -> exists j, i <= j /\ Esc j.
Proof.
  intros Hw Hr. destruct (worker_at _ w (run_winv i) Hw) as (wk & Hk).
  assert (busy (pc (pool (sg i)) w)) as Hb.
  { destruct (decide (busy (pc (pool (sg i)) w))) as [?|Hnb]; [done|]. pose proof (wi_agree _ _ _ _ (run_winv i) w wk Hk Hnb) as E.
    apply (WholeRt.resting_spec _ _ _ Hk) in E. congruence. }
  destruct (next_turn w i Hw) as (j & Hj & [He|(E1 & E2 & c & v & fail & Hl)]); [intros Hx; by destruct (pc (pool (sg i)) w)|by eauto|].
  exists j. split; [done|]. unfold Esc, rl. rewrite Hl. simpl. rewrite E1, E2. destruct (pc (pool (sg i)) w); try done; by rewrite Hr.
Qed.

Lemma waiting_escapes w : w < n -> forall r i, rk (pc (pool (sg i)) w) <= r -> q (pool (sg i)) w <> [] -> exists j, i <= j /\ Esc j.
Proof.
  intros Hw. induction r as [r IH] using lt_wf_ind. intros i Hr Hq.
  assert (~ left (pc (pool (sg i)) w)) as Hnl by (intros Hl; by apply Hq, run_linv).
  destruct (next_turn w i Hw Hnl) as (j & Hj & [He|(E1 & E2 & c & v & fail & Hl)]); [by eauto|].
  destruct (esc_dec j) as [He|He]; [by eauto|].
  assert (q (pool (sg j)) w <> []) as Hqj by (by rewrite (same_q i j w Hw E2)).
  assert (q (pool (sg (j + 1))) w <> []) as Hqj1 by (rewrite (same_q j (j + 1) w Hw); [done|by apply esc_same]).
  assert (pl j = Some (LWorker w c)) as Hp.
  { unfold pl. unfold rl in He. rewrite Hl in He |- *. simpl in *. destruct (pc (pool (sg j)) w); try done; by destruct (resting (rt (sg j)) w). }
  destruct (whole_tick j) as [[trp Hs] _]. rewrite Hp in Hs. simpl in Hs. rewrite decide_True in Hs by done.
  destruct (IH (rk (pc (pool (sg (j + 1))) w))) with (i := j + 1) as (k & Hk & Hk'); [|done|done|exists k; split; [lia|done]].
  eapply Nat.lt_le_trans; [|exact Hr]. rewrite <- E1 in Hnl |- *. unfold rl in He. rewrite Hl in He. simpl in He.
  unfold BusyModel.worker in Hs. destruct (pc (pool (sg j)) w) eqn:Hpc; try (by destruct Hnl).
  all: repeat match type of Hs with context [match ?y with _ => _ end] => destruct y eqn:?; try done end; injection Hs as Hs _; rewrite <- Hs; simpl; rewrite fset_eq; simpl; lia.
Qed.

(** ** Submissions end *)

Context (N : nat) (HP : submissions_end N l).

Definition obs (k : nat) : RuntimeModel.state * list RuntimeModel.event := (rt (sg (N + k)), hist (sg (N + k))).

Lemma no_spawn k r : N <= k -> rl k = Some r -> forall d t, r <> RuntimeModel.LSpawn d t.
Proof.
  unfold rl. intros Hk Hr d t ->. destruct (l k) as [y|] eqn:Hl; [|done]. destruct y as [u c v fail|d' t'| | |u]; simpl in Hr; [..|done|done|done].
  - destruct (pc (pool (sg k)) u); try (destruct (q (pool (sg k)) u)); try (destruct c); try (destruct (resting (rt (sg k)) u)); simpl in Hr; discriminate Hr.
  - exact (HP k d' t' Hk Hl).
Qed.

Lemma obs_step k : obs (S k) = obs k /\ rl (N + k) = None \/ RuntimeTermSpec.moves n af (obs k) (obs (S k)) /\ Esc (N + k).
Proof.
  unfold obs. replace (N + S k) with (N + k + 1) by lia. destruct (esc_dec (N + k)) as [He|He].
  - right. split; [|done]. destruct (whole_tick (N + k)) as (_ & (tr & H & H') & HA). unfold Esc in He. destruct (rl (N + k)) as [r|] eqn:Hr; [|done].
    exists r, tr. simpl in *. split_and!; [by apply HA|apply (no_spawn (N + k) r); [lia|done]|done|done].
  - left. apply esc_same in He as HE. destruct HE as [-> ->]. done.
Qed.

Lemma moves_at j : N <= j -> Esc j -> RuntimeTermSpec.moves n af (obs (j - N)) (obs (S (j - N))).
Proof.
  intros Hj He. destruct (obs_step (j - N)) as [[_ E]|[? _]]; [|done]. unfold Esc in He. by replace (N + (j - N)) with j in E by lia.
Qed.

Lemma obs_lasting : RuntimeTermSpec.lasting n af obs.
Proof.
  split.
  - intros k. destruct (obs_step k) as [[-> _]|[? _]]; auto.
  - intros k Hc. assert (exists j, N + k <= j /\ Esc j) as (j & Hj & He).
    { pose proof (wi_rt _ _ _ _ (run_winv (N + k))) as HR.
      destruct (WholeRt.can_move_who _ _ _ _ HR Hc) as (w & Hw & [Hr|(wk & f & Hk & Hf)]); [by apply (busy_escapes w)|].
      apply (waiting_escapes w Hw _ _ (le_n _)). rewrite <- (wi_q _ _ _ _ (run_winv (N + k)) w wk Hk). destruct (RuntimeModel.w_inbox wk); [by apply elem_of_nil in Hf|done]. }
    exists (j - N). split; [lia|]. apply moves_at; [lia|done].
Qed.

Lemma obs_reach : RuntimeSpec.reach n af (obs 0).1 (obs 0).2.
Proof. apply (wi_rt _ _ _ _ (run_winv (N + 0))). Qed.

Context (HT : all_terminate af sg).

(** The runtime comes to rest. *)
Lemma comes_to_rest : exists K, N <= K /\ forall m, K <= m -> rl m = None /\ RuntimeModel.s_frames (rt (sg m)) = ∅.
Proof.
  destruct (WholeRt.run_rests n af obs 0 obs_lasting obs_reach) as (k & _ & Hc).
  { apply RuntimeTerm3.moves_acc; [apply obs_reach|]. intros f t H1 H2. by apply (HT (N + 0) f t). }
  pose proof (WholeRt.rests_forever n af obs k obs_lasting obs_reach Hc) as Hf.
  exists (N + k). split; [lia|]. intros m Hm. split.
  - destruct (obs_step (m - N)) as [[_ E]|[Hmv _]]; [by replace (N + (m - N)) with m in E by lia|]. exfalso.
    eapply (WholeRt.stuck_moves n af (obs (m - N))); [|rewrite Hf by lia; exact Hc|exact Hmv].
    apply (RuntimeTerm3.run_reach af n obs obs_lasting obs_reach).
  - assert (rt (sg m) = rt (sg (N + k))) as ->.
    { assert (obs (m - N) = obs k) as E by (apply Hf; lia). unfold obs in E. replace (N + (m - N)) with m in E by lia. congruence. }
    apply map_eq. intros f. rewrite lookup_empty. destruct (RuntimeModel.s_frames (rt (sg (N + k))) !! f) as [fr|] eqn:E; [|done]. exfalso.
    apply Hc. destruct (RuntimeThms.progress n af _ _ f fr (wi_rt _ _ _ _ (run_winv (N + k))) E) as (lb & s' & tr & Hl & Hs).
    exists lb, s', tr. destruct lb; simpl in Hl; try done. by subst.
Qed.

(** The pool's part is then a fair execution of the pool with no more work. *)
Lemma pool_fair : fair n unit psg pl.
Proof.
  destruct comes_to_rest as (K & _ & HK). split.
  - apply pool_run.
  - intros w Hw i. destruct (wf_worker _ _ _ _ _ HW w (i `max` K) Hw) as (j & Hj & [(c & v & fail & Hl)|Hb]); exists j; (split; [lia|]).
    + left. exists (LWorker w c). split; [|by exists c]. destruct (HK j ltac:(lia)) as [Hr _]. unfold pl. unfold rl in Hr. rewrite Hl in Hr |- *. simpl in *.
      destruct (pc (pool (sg j)) w); try done; by destruct (resting (rt (sg j)) w).
    + right. intros x [c ->]. by apply (blocked_left (sg j) w (run_winv j) Hw Hb).
  - intros i. destruct (wf_join _ _ _ _ _ HW i) as (j & Hj & [Hl|Hb]); exists j; (split; [done|]).
    + left. exists LJoin. split; [|done]. unfold pl. by rewrite Hl.
    + right. intros x ->. unfold BWholeModel.whole_step in Hb. cbn [fst snd parts pool_part rt_part] in Hb. by destruct (BusyModel.step n unit LJoin (pool (sg j))).
Qed.

Lemma pool_ends : exists K, work_ends n unit K psg pl.
Proof.
  destruct comes_to_rest as (K & _ & HK). exists K. intros j Hj. destruct (HK j Hj) as [Hr _]. split.
  - intros w y (x & tr & Hl & Hs & Hin). unfold pl, rl in Hl, Hr. destruct (l j) as [z|]; [|done].
    assert (forall d k, x <> LPush d k) as Hag.
    { intros d k ->. destruct z as [u c v fail|d' t| | |u]; simpl in Hl, Hr; [|done..].
      destruct (pc (pool (sg j)) u); try done; by destruct (resting (rt (sg j)) u). }
    destruct x as [u c|d k| |]; simpl in Hs; [|by edestruct Hag|..].
    + case_decide; [|done]. unfold BusyModel.worker in Hs.
      destruct (pc (pool (sg j)) u); repeat case_match; try done; simplify_eq; set_solver.
    + injection Hs as _ <-. destruct (stop _); set_solver.
    + repeat case_match; try done. injection Hs as _ <-. set_solver.
  - intros w c Hl Hp. unfold pl, rl in Hl, Hr. destruct (l j) as [z|]; [|done]. destruct z as [u c' v fail|d' t| | |u]; simpl in Hl, Hr; [|done..].
    destruct (pc (pool (sg j)) u) eqn:Hpu; try (injection Hl as -> ->; congruence).
    + injection Hl as -> ->. by destruct c.
    + destruct (resting (rt (sg j)) u); [injection Hl as -> ->; congruence|]. by destruct (moving (rt (sg j)) u) as [[??]|].
    + destruct (resting (rt (sg j)) u); [injection Hl as -> ->; congruence|]. by destruct (moving (rt (sg j)) u) as [[??]|].
Qed.
End Proofs.
