(** * busy_pool and unit_pool: liveness under fairness. *)

From stdpp Require Import prelude list.
From Coq Require Import Lia.
From Verif Require Import PoolCommon PoolFair PoolSpec BusyModel BusySpec BusyProofs.
From Verif Require LazyProofs.

Section Live.
Context (n : nat) (unit : bool).
Notation worker := (worker n unit).
Notation step := (step n unit).
Notation binv := (binv n unit).
Context (sg : nat -> st) (l : nat -> option lab) (HF : fair n unit sg l).
Notation emits := (emits step sg l).

Definition notw (w : nat) (x : lab) : Prop := match x with LWorker u _ => u <> w | _ => True end.

Lemma other_pc w x s s' tr : step x s = Next s' tr -> notw w x -> pc s' w = pc s w.
Proof.
  intros Hs Hn. destruct x as [u c|u j| |]; simpl in Hs, Hn.
  - case_decide; [|done]. unfold BusyModel.worker in Hs. repeat case_match; try done; injection Hs as <- <-; simpl; by rewrite fset_ne.
  - case_decide; [|done]. by injection Hs as <- <-.
  - by injection Hs as <- <-.
  - repeat case_match; try done. by injection Hs as <- <-.
Qed.
Lemma other_q w x s s' tr : step x s = Next s' tr -> notw w x -> q s' w = q s w \/ exists j, q s' w = q s w ++ [j] /\ EvPush w j ∈ tr.
Proof.
  intros Hs Hn. destruct x as [u c|u j| |]; simpl in Hs, Hn.
  - case_decide; [|done]. unfold BusyModel.worker in Hs. left. repeat case_match; try done; injection Hs as <- <-; simpl; by rewrite ?fset_ne.
  - case_decide; [|done]. injection Hs as <- <-. simpl. unfold fset. case_decide as E; [subst; right|by left]. exists j. split; [done|set_solver].
  - injection Hs as <- <-. by left.
  - repeat case_match; try done. injection Hs as <- <-. by left.
Qed.
Lemma stop_mono x s s' tr : step x s = Next s' tr -> stop s = true -> stop s' = true.
Proof.
  intros Hs Hst. destruct x as [u c|u j| |]; simpl in Hs.
  - case_decide; [|done]. unfold BusyModel.worker in Hs. repeat case_match; try done; by injection Hs as <- <-.
  - case_decide; [|done]. by injection Hs as <- <-.
  - by injection Hs as <- <-.
  - repeat case_match; try done. by injection Hs as <- <-.
Qed.

Lemma run_inv i : exists h, binv (sg i) h.
Proof.
  induction i as [|i [h IH]].
  - exists []. rewrite (run_init _ _ _ _ (fr_run _ _ _ _ HF)). apply binv_init.
  - pose proof (run_step _ _ _ _ (fr_run _ _ _ _ HF) i) as Hs. rewrite Nat.add_1_r in Hs. destruct (l i) as [x|].
    + destruct Hs as [tr Hs]. eexists. by eapply step_binv.
    + rewrite Hs. eauto.
Qed.

Lemma tick i w : (exists c tr, l i = Some (LWorker w c) /\ worker w c (sg i) = Next (sg (i + 1)) tr) \/
  (exists x tr, l i = Some x /\ notw w x /\ step x (sg i) = Next (sg (i + 1)) tr) \/ sg (i + 1) = sg i.
Proof.
  pose proof (run_step _ _ _ _ (fr_run _ _ _ _ HF) i) as Hs. destruct (l i) as [x|] eqn:Hl; [|by auto].
  destruct Hs as [tr Hs]. assert ((exists c, x = LWorker w c) \/ notw w x) as [[c ->]|Hn].
  { destruct x as [v c| | |]; simpl; auto. destruct (decide (v = w)) as [->|]; eauto. }
  - left. exists c, tr. split; [done|]. simpl in Hs. by case_decide.
  - right. left. eauto.
Qed.

(** A worker makes its next step, unless it waits at the latch or has finished. *)
Lemma worker_acts w i (R : nat -> Prop) : w < n -> R i ->
  (forall k, i <= k -> R k -> (pc (sg k) w = XLatch -> arrived (sg k) = n) /\ pc (sg k) w <> XDone) ->
  (forall k, i <= k -> R k -> (forall x tr, l k = Some x -> notw w x -> step x (sg k) = Next (sg (k + 1)) tr -> R (k + 1)) /\ (sg (k + 1) = sg k -> R (k + 1))) ->
  exists j c tr, i <= j /\ R j /\ l j = Some (LWorker w c) /\ worker w c (sg j) = Next (sg (j + 1)) tr.
Proof.
  intros Hw HR Hns Hoth.
  destruct (until R (fun _ => False) (fun k => (exists c tr, l k = Some (LWorker w c) /\ worker w c (sg k) = Next (sg (k + 1)) tr) \/
    forall x, (exists c, x = LWorker w c) -> step x (sg k) = Blocked) i) as (j & Hj & [[]|[HRj HX]]).
  - intros k Hk HRk. destruct (tick k w) as [(c & tr & Hl & Hs)|[(x & tr & Hl & Hn & Hs)|He]].
    + left. left. eauto.
    + right. left. by eapply (proj1 (Hoth k Hk HRk)).
    + right. left. by apply (proj2 (Hoth k Hk HRk)).
  - done.
  - destruct (fr_worker _ _ _ _ HF w Hw i) as (j & Hj & [(x & Hl & c & ->)|Hst]); exists j; (split; [done|]); [|by right].
    left. pose proof (run_step _ _ _ _ (fr_run _ _ _ _ HF) j) as Hs. rewrite Hl in Hs. destruct Hs as [tr Hs].
    exists c, tr. split; [done|]. simpl in Hs. by case_decide.
  - destruct HX as [(c & tr & Hl & Hs)|Hst]; [by eauto 8|]. exfalso. destruct (Hns j Hj HRj) as [H1 H2].
    specialize (Hst (LWorker w false) ltac:(eauto)). simpl in Hst. rewrite decide_True in Hst by done. unfold BusyModel.worker in Hst.
    destruct (pc (sg j) w) eqn:Hp; try done; try (by destruct (q (sg j) w)). rewrite H1 in Hst by done. by rewrite decide_True in Hst.
Qed.

(** ** Jobs are run *)

Definition holds (p : wpc) (j : nat) : Prop := match p with BRun h | BDrainRun h => j ∈ h | _ => False end.

Lemma held_runs w j i : w < n -> holds (pc (sg i) w) j -> exists k h, i <= k /\ emits k (EvRun w h) /\ j ∈ h.
Proof.
  intros Hw Hh. destruct (worker_acts w i (fun k => pc (sg k) w = pc (sg i) w)) as (k & c & tr & Hk & HR & Hl & Hs); [done|done|..].
  - intros k _ ->. split; [intros E|intros E]; by rewrite E in Hh.
  - intros k _ E. split; [|by intros ->]. intros x tr _ Hn Hs. by rewrite (other_pc w x _ _ _ Hs Hn).
  - assert (step (LWorker w c) (sg k) = Next (sg (k + 1)) tr) as Hst by (simpl; by rewrite decide_True).
    unfold BusyModel.worker in Hs. rewrite HR in Hs.
    destruct (pc (sg i) w) as [| | |h| |h| | | |]; try done; injection Hs as _ <-; exists k, h; (split; [done|]); (split; [|done]);
      exists (LWorker w c), [EvRun w h]; (split; [done|]); (split; [done|set_solver]).
Qed.

Definition rk (p : wpc) : nat := match p with BPop | BDrain => 0 | BTest | BDrainRun _ => 1 | BRun _ => 2 | BSteal => 3 | _ => 0 end.

Lemma queue_taken w j : w < n -> forall r i, rk (pc (sg i) w) <= r -> j ∈ q (sg i) w -> ~ left (pc (sg i) w) -> exists k, i <= k /\ holds (pc (sg k) w) j.
Proof.
  intros Hw. induction r as [r IH] using lt_wf_ind. intros i Hr Hj Hnl.
  destruct (worker_acts w i (fun k => pc (sg k) w = pc (sg i) w /\ j ∈ q (sg k) w)) as (k & c & tr & Hk & [HR Hjk] & Hl & Hs); [done|done|..].
  - intros k _ [E _]. rewrite E. split; [intros E'|intros E']; rewrite E' in Hnl; by destruct Hnl.
  - intros k _ [E Hjk]. split; [|by intros ->]. intros x tr _ Hn Hs. split; [by rewrite (other_pc w x _ _ _ Hs Hn)|].
    destruct (other_q w x _ _ _ Hs Hn) as [->|(y & -> & _)]; [done|]. apply elem_of_app. by left.
  - assert (holds (pc (sg (k + 1)) w) j \/ (j ∈ q (sg (k + 1)) w /\ ~ left (pc (sg (k + 1)) w) /\ rk (pc (sg (k + 1)) w) < rk (pc (sg i) w))) as [Hd|(H1 & H2 & H3)].
    { unfold BusyModel.worker in Hs. rewrite HR in Hs.
      destruct (pc (sg i) w) as [| | |h| |h| | | |] eqn:Hp; try (by destruct Hnl).
      - injection Hs as Hs _. rewrite <- Hs. simpl. rewrite fset_eq. right. destruct (stop (sg k)); simpl; (split_and!; [done|by auto|lia]).
      - destruct (q (sg k) w) as [|j0 js] eqn:Hq; [by apply elem_of_nil in Hjk|]. injection Hs as Hs _. rewrite <- Hs. simpl. rewrite fset_eq. by left.
      - injection Hs as Hs _. rewrite <- Hs. simpl. rewrite fset_eq. right. destruct c; simpl; (split_and!; [done|by auto|lia]).
      - injection Hs as Hs _. rewrite <- Hs. simpl. rewrite fset_eq. right. simpl; (split_and!; [done|by auto|lia]).
      - destruct (q (sg k) w) as [|j0 js] eqn:Hq; [by apply elem_of_nil in Hjk|]. injection Hs as Hs _. rewrite <- Hs. simpl. rewrite fset_eq. by left.
      - injection Hs as Hs _. rewrite <- Hs. simpl. rewrite fset_eq. right. simpl; (split_and!; [done|by auto|lia]). }
    + exists (k + 1). split; [lia|done].
    + destruct (IH (rk (pc (sg (k + 1)) w)) ltac:(lia) (k + 1) (le_n _) H1 H2) as (k' & Hk' & Hd). exists k'. split; [lia|done].
Qed.

Theorem job_runs w j i : emits i (EvPush w j) -> stop (sg i) = false -> exists k h, i <= k /\ emits k (EvRun w h) /\ j ∈ h.
Proof.
  intros (x & tr & Hl & Hs & He) Hst.
  assert (w < n /\ j ∈ q (sg (i + 1)) w /\ pc (sg (i + 1)) w = pc (sg i) w) as (Hw & Hj & Hp).
  { destruct x as [u c|u y| |]; simpl in Hs.
    - case_decide; [|done]. unfold BusyModel.worker in Hs. repeat case_match; try done; injection Hs as _ <-; set_solver.
    - case_decide; [|done]. injection Hs as Hs <-. assert (w = u /\ j = y) as [-> ->] by set_solver. rewrite <- Hs. simpl. rewrite fset_eq. set_solver.
    - injection Hs as _ <-. rewrite Hst in He. set_solver.
    - repeat case_match; try done. injection Hs as _ <-. set_solver. }
  assert (~ left (pc (sg (i + 1)) w)) as Hnl.
  { rewrite Hp. intros Hl'. destruct (run_inv i) as [h I]. assert (stop (sg i) = true); [|congruence]. apply (bi_stop _ _ _ _ I w). by destruct (pc (sg i) w). }
  destruct (queue_taken w j Hw _ (i + 1) (le_n _) Hj Hnl) as (k & Hk & Hd). destruct (held_runs w j k Hw Hd) as (k' & h & Hk' & H).
  exists k', h. split; [lia|done].
Qed.

(** ** Shutdown terminates *)

Definition rk2 (p : wpc) : nat :=
  match p with
  | XDone | XLatch => 0 | XArrive => 1 | XStop => 2 | BDrain => 3 | BTest | BDrainRun _ => 4 | BSteal | BRun _ => 5 | BPop => 6
  end.
Definition sk (w : nat) (s : st) : nat := rk2 (pc s w) + match q s w with [] => 0 | _ => 10 end.

Lemma stop_stable i j : i <= j -> stop (sg i) = true -> stop (sg j) = true.
Proof.
  intros Hij Hst. apply (stable (fun k => stop (sg k) = true) i); [|done|done]. intros k _ Hk.
  pose proof (run_step _ _ _ _ (fr_run _ _ _ _ HF) k) as Hs. destruct (l k); [|by rewrite Hs]. destruct Hs as [tr Hs]. by eapply stop_mono.
Qed.

Lemma arrives w N : w < n -> stop (sg N) = true -> work_ends n unit N sg l -> forall r i, N <= i -> sk w (sg i) <= r -> exists j, i <= j /\ arrst (pc (sg j) w) = true.
Proof.
  intros Hw HN HE. induction r as [r IH] using lt_wf_ind. intros i Hi Hr.
  assert (arrst (pc (sg i) w) = true \/ (pc (sg i) w <> XLatch /\ pc (sg i) w <> XDone)) as [Ha|[H1 H2]].
  { destruct (pc (sg i) w); simpl; auto. }
  { exists i. split; [lia|done]. }
  destruct (worker_acts w i (fun k => pc (sg k) w = pc (sg i) w /\ q (sg k) w = q (sg i) w)) as (j & c & tr & Hj & [Hp Hq] & Hl & Hs); [done|done|..].
  - intros k _ [E _]. rewrite E. done.
  - intros k Hk [E Eq]. split; [|by intros ->]. intros x tr Hl Hn Hs. split; [by rewrite (other_pc w x _ _ _ Hs Hn)|].
    destruct (other_q w x _ _ _ Hs Hn) as [->|(y & _ & Hy)]; [done|]. exfalso. eapply (proj1 (HE k ltac:(lia))). exists x, tr. eauto.
  - assert (stop (sg j) = true) as Hst by (apply (stop_stable N); [lia|done]).
    pose proof (proj2 (HE j ltac:(lia)) w c Hl) as Hsteal.
    assert (sk w (sg (j + 1)) < sk w (sg i)) as Hd.
    { unfold sk. unfold BusyModel.worker in Hs. rewrite Hst in Hs. rewrite <- Hp, <- Hq.
      destruct (pc (sg j) w) as [| | |h| |h| | | |] eqn:Epc; try congruence.
      all: try (specialize (Hsteal eq_refl); subst c).
      all: try (destruct (q (sg j) w) eqn:Eq; injection Hs as Hs _; rewrite <- Hs; simpl; rewrite ?fset_eq, ?Eq; simpl; try (destruct unit; simpl); lia).
    }
    destruct (IH (sk w (sg (j + 1))) ltac:(lia) (j + 1) ltac:(lia) (le_n _)) as (k & Hk & Ha). exists k. split; [lia|done].
Qed.

Lemma arrst_stable w k : arrst (pc (sg k) w) = true -> arrst (pc (sg (k + 1)) w) = true.
Proof.
  intros Ha. destruct (tick k w) as [(c & tr & Hl & Hs)|[(x & tr & Hl & Hn & Hs)|He]]; [| |by rewrite He].
  - unfold BusyModel.worker in Hs. destruct (pc (sg k) w); try done. case_decide; [|done]. injection Hs as Hs _. rewrite <- Hs. simpl. by rewrite fset_eq.
  - by rewrite (other_pc w x _ _ _ Hs Hn).
Qed.
Lemma done_stable w k : pc (sg k) w = XDone -> pc (sg (k + 1)) w = XDone.
Proof.
  intros Ha. destruct (tick k w) as [(c & tr & Hl & Hs)|[(x & tr & Hl & Hn & Hs)|He]]; [| |by rewrite He].
  - unfold BusyModel.worker in Hs. by rewrite Ha in Hs.
  - by rewrite (other_pc w x _ _ _ Hs Hn).
Qed.

Lemma cnt_all m f : (forall u, u < m -> f u = true) -> LazyProofs.cnt m f = m.
Proof. induction m as [|m IH]; intros H; simpl; [done|]. rewrite IH by (intros; apply H; lia). rewrite H by lia. simpl. lia. Qed.

Theorem shutdown_terminates i N : stop (sg i) = true -> work_ends n unit N sg l -> exists k, i <= k /\ dt (sg k) = true.
Proof.
  intros Hst HE. set (M := i `max` N). assert (stop (sg M) = true) as HM by (apply (stop_stable i); [lia|done]).
  assert (work_ends n unit M sg l) as HEM by (intros k Hk; apply HE; lia).
  destruct (gather (fun w k => arrst (pc (sg k) w) = true) n M) as (a & Ha & Hall).
  { intros w k _ _. apply arrst_stable. }
  { intros w Hw. by eapply (arrives w M). }
  assert (forall k, a <= k -> forall w, w < n -> pc (sg k) w = XLatch -> arrived (sg k) = n) as Harr.
  { intros k Hk w Hw Hx. destruct (run_inv k) as (h & I). pose proof (bi_arr _ _ _ _ I) as Hb.
    assert (unit = true \/ unit = false) as [E|E] by (destruct unit; auto); rewrite E in Hb.
    - destruct (Hb w) as (_ & _ & ?). done.
    - rewrite Hb. apply cnt_all. intros u Hu.
      apply (stable (fun k => arrst (pc (sg k) u) = true) a); [intros; by apply arrst_stable|by apply Hall|done]. }
  destruct (gather (fun w k => pc (sg k) w = XDone) n a) as (b & Hb & Hdone).
  { intros w k _ _. apply done_stable. }
  { intros w Hw. specialize (Hall w Hw). destruct (pc (sg a) w) eqn:Hp; try done; [|exists a; by auto].
    destruct (worker_acts w a (fun k => pc (sg k) w = XLatch)) as (k & c & tr & Hk & HR & Hl & Hs); [done|done|..].
    - intros k Hk E. split; [|congruence]. intros _. by apply (Harr k Hk w).
    - intros k Hk E. split; [|by intros ->]. intros x tr Hl Hn Hs. by rewrite (other_pc w x _ _ _ Hs Hn).
    - exists (k + 1). split; [lia|]. unfold BusyModel.worker in Hs. rewrite HR in Hs. case_decide; [|done].
      injection Hs as Hs _. rewrite <- Hs. simpl. by rewrite fset_eq. }
  assert (forall k, b <= k -> forallb (fun u => match pc (sg k) u with XDone => true | _ => false end) (seq 0 n) = true) as Hfa.
  { intros k Hk. apply forallb_forall. intros u Hu. apply in_seq in Hu.
    rewrite (stable (fun k => pc (sg k) u = XDone) b); [done|intros; by apply done_stable|apply Hdone; lia|done]. }
  destruct (fr_join _ _ _ _ HF b) as (k & Hk & [(x & Hl & ->)|Hbl]).
  - pose proof (run_step _ _ _ _ (fr_run _ _ _ _ HF) k) as Hs. rewrite Hl in Hs. destruct Hs as [tr Hs]. simpl in Hs.
    exists (k + 1). split; [lia|]. repeat case_match; try done. injection Hs as Hs _. by rewrite <- Hs.
  - specialize (Hbl LJoin eq_refl). simpl in Hbl. rewrite decide_True in Hbl by (apply (stop_stable i); [lia|done]). rewrite Hfa in Hbl; done.
Qed.
End Live.
