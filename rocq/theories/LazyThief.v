(** * lazy_pool: while a worker is active, every domain has somebody looking for work,
    or nobody asleep, or a wake-up under way. *)

From stdpp Require Import prelude list.
From Coq Require Import Lia.
From Verif Require Import PoolCommon LazyModel LazyProofs LazyInv.

Section Thief.
Context (n nd : nat) (dom : nat -> nat).
Notation worker := (worker n nd dom).
Notation step := (step n nd dom).
Notation cinv := (cinv n dom).
Notation finv := (finv n nd dom).

(** With the domain's epoch [e]: looking for work. *)
Definition look (e : nat) (p : wpc) : Prop :=
  thiefst p = true \/ match p with WTop | WAct _ | WCancel | WUnreg => True | WWait k => k <> e | _ => False end.
(** Asleep, or about to be, and not notified since. *)
Definition fresh (e : nat) (p : wpc) : Prop :=
  match p with WBlocked k | WWait k => k = e | _ => False end.
(** Worker [u] is going to notify domain [d], respectively has done so and is going to wake somebody. *)
Definition pre (d u : nat) (p : wpc) : Prop :=
  match p with
  | TNote _ => dom u = d
  | TDom _ i | TDomNote _ i => i <= d
  | TDomWake _ i => i < d
  | _ => False
  end.
Definition post (d u : nat) (p : wpc) : Prop :=
  match p with TWake _ => dom u = d | TDomWake _ i => i = d | _ => False end.
Definition blocked (p : wpc) : Prop := match p with WBlocked _ => True | _ => False end.

Definition looking (d : nat) (s : st) : Prop := exists u, u < n /\ dom u = d /\ look (epoch s d) (pc s u).
Definition prep (d : nat) (s : st) : Prop := exists u, u < n /\ pre d u (pc s u).
Definition posted (d : nat) (s : st) : Prop := exists u, u < n /\ post d u (pc s u).
Definition nofresh (d : nat) (s : st) : Prop := forall u, u < n -> dom u = d -> ~ fresh (epoch s d) (pc s u).
Definition noblocked (d : nat) (s : st) : Prop := forall u, u < n -> dom u = d -> ~ blocked (pc s u).

Definition A (d : nat) (s : st) : Prop := looking d s \/ prep d s \/ (nofresh d s /\ (noblocked d s \/ posted d s)).
Definition tinv (s : st) : Prop := 0 < active s -> forall d, d < nd -> A d s.

Lemma A_pc w p' d s s' :
  w < n -> pc s' = fset w p' (pc s) -> epoch s' d = epoch s d ->
  (dom w = d -> look (epoch s d) (pc s w) -> look (epoch s d) p' \/ A d s') ->
  (pre d w (pc s w) -> pre d w p' \/ A d s') ->
  (dom w = d -> fresh (epoch s d) p' -> fresh (epoch s d) (pc s w)) ->
  (dom w = d -> blocked p' -> blocked (pc s w) \/ fresh (epoch s d) (pc s w)) ->
  (nofresh d s -> post d w (pc s w) -> post d w p' \/ A d s') ->
  A d s -> A d s'.
Proof.
  intros Hw Hpc He H1 H2 H3 H4 H5 [(u & Hu & Hd & Hl)|[(u & Hu & Hl)|[Hnf Hb]]].
  - destruct (decide (u = w)) as [->|Hne].
    + destruct (H1 Hd Hl) as [Hl'|]; [left|done]. exists w. rewrite Hpc, fset_eq, He. done.
    + left. exists u. rewrite Hpc, fset_ne, He; done.
  - destruct (decide (u = w)) as [->|Hne].
    + destruct (H2 Hl) as [Hl'|]; [right; left|done]. exists w. rewrite Hpc, fset_eq. done.
    + right. left. exists u. rewrite Hpc, fset_ne; done.
  - assert (nofresh d s') as Hnf'.
    { intros u Hu Hd. rewrite He, Hpc. unfold fset. case_decide as E; [subst u|by apply Hnf].
      intros Hf. apply (Hnf w Hu Hd). by apply H3. }
    destruct Hb as [Hb|(u & Hu & Hl)].
    + right. right. split; [done|left]. intros u Hu Hd. rewrite Hpc. unfold fset. case_decide as E; [subst u|by apply Hb].
      intros Hbl. destruct (H4 Hd Hbl) as [?|?]; [by apply (Hb w)|by apply (Hnf w)].
    + destruct (decide (u = w)) as [->|Hne].
      * destruct (H5 Hnf Hl) as [Hl'|]; [|done]. right. right. split; [done|right]. exists w. rewrite Hpc, fset_eq. done.
      * right. right. split; [done|right]. exists u. rewrite Hpc, fset_ne; done.
Qed.

Lemma fresh_key e p : fresh e p -> keyof p = Some e.
Proof. destruct p; simpl; try done; by intros ->. Qed.

Lemma nofresh_epoch d s : cinv s -> nofresh d (set_epoch d (S (epoch s d)) s).
Proof.
  intros C u Hu Hd Hf. simpl in Hf. rewrite fset_eq in Hf. apply fresh_key in Hf.
  pose proof (ci_key _ _ _ C u _ Hu Hf). rewrite Hd in *. lia.
Qed.

Lemma A_epoch d' d s : cinv s -> A d s -> A d (set_epoch d' (S (epoch s d')) s).
Proof.
  intros C HA. destruct (decide (d = d')) as [->|Hne].
  - destruct HA as [(u & Hu & Hd & Hl)|[HA|[Hnf Hb]]].
    + left. exists u. split; [done|]. split; [done|]. simpl. rewrite fset_eq. unfold look in *. destruct Hl as [?|Hl]; [by left|right].
      destruct (pc s u) eqn:Hp; try done.
      assert (k <= epoch s (dom u)) by (apply (ci_key _ _ _ C u k Hu); by rewrite Hp). rewrite Hd in *. lia.
    + right. by left.
    + right. right. split; [by apply nofresh_epoch|done].
  - destruct HA as [(u & Hu & Hd & Hl)|[HA|[Hnf Hb]]].
    + left. exists u. simpl. rewrite fset_ne by done. done.
    + right. by left.
    + right. right. split; [|done]. intros u Hu Hd. simpl. rewrite fset_ne by done. by apply Hnf.
Qed.

Lemma A_unblock d u k s : u < n -> pc s u = WBlocked k -> A d s -> A d (set_pc u (WWait k) s).
Proof. intros Hu Hp. eapply (A_pc u (WWait k)); rewrite ?Hp; simpl; try done. intros _ [?|?]; done. Qed.

Lemma A_wake_all d' d s : A d s -> A d (wake_all dom d' s).
Proof.
  intros HA.
  assert (forall u, pc (wake_all dom d' s) u = pc s u \/ exists k, pc s u = WBlocked k /\ pc (wake_all dom d' s) u = WWait k) as Hx.
  { intros u. simpl. case_decide; [|by left]. destruct (pc s u); simpl; eauto. }
  destruct HA as [(u & Hu & Hd & Hl)|[(u & Hu & Hl)|[Hnf Hb]]].
  - left. exists u. split; [done|]. split; [done|]. destruct (Hx u) as [->|(k & Hk & _)]; [done|]. rewrite Hk in Hl. by destruct Hl.
  - right. left. exists u. split; [done|]. destruct (Hx u) as [->|(k & Hk & _)]; [done|]. by rewrite Hk in Hl.
  - right. right. split.
    + intros u Hu Hd. specialize (Hnf u Hu Hd). destruct (Hx u) as [->|(k & Hk & ->)]; [done|]. by rewrite Hk in Hnf.
    + destruct Hb as [Hb|(u & Hu & Hl)]; [left|right].
      * intros u Hu Hd. specialize (Hb u Hu Hd). destruct (Hx u) as [->|(k & Hk & ->)]; simpl; auto.
      * exists u. split; [done|]. destruct (Hx u) as [->|(k & Hk & _)]; [done|]. by rewrite Hk in Hl.
Qed.

(** notify_one's second half leaves a domain without fresh sleepers in a good state. *)
Lemma wake_one_good d t s s1 : wake_one n dom d t s = Some s1 -> nofresh d s ->
  nofresh d s1 /\ (looking d s1 \/ noblocked d s1).
Proof.
  intros Hw Hnf. apply wake_one_cases in Hw as [(u & k & Hu & Hd & Hp & ->)|[-> Hnb]].
  - split.
    + intros v Hv Hdv. simpl. unfold fset. case_decide as E; [subst v|by apply Hnf].
      specialize (Hnf u Hu Hd). by rewrite Hp in Hnf.
    + left. exists u. split; [done|]. split; [done|]. simpl. rewrite fset_eq. right. simpl. intros ->.
      apply (Hnf u Hu Hd). by rewrite Hp.
  - split; [done|]. right. intros u Hu Hd Hb. destruct (pc s u) eqn:Hp; try done. by eapply Hnb.
Qed.

Lemma other_thief w d s : w < n -> cinv s -> dom w = d -> thiefst (pc s w) = true -> thief s d <> 1 ->
  exists u, u <> w /\ u < n /\ dom u = d /\ thiefst (pc s u) = true.
Proof.
  intros Hw C Hd Ht Hn1. pose proof (ci_thief _ _ _ C d) as Hc. set (s' := set_pc w WTop s).
  pose proof (count_upd n dom thiefst d w WTop s s' Hw eq_refl) as Hu. rewrite decide_True, Ht in Hu by done. simpl in Hu.
  pose proof (thief_pos n dom w s Hw C Ht) as Hpos. rewrite Hd in Hpos.
  assert (0 < count n dom thiefst d s') as Hp by lia. apply cnt_pos in Hp as (u & Hun & Hx).
  apply andb_true_iff in Hx as [Hx1 Hx2]. apply bool_decide_eq_true in Hx1. simpl in Hx2. unfold fset in Hx2. case_decide; [done|].
  eauto.
Qed.

Lemma some_thief d s : cinv s -> thief s d <> 0 -> looking d s.
Proof.
  intros C Hn. rewrite (ci_thief _ _ _ C d) in Hn. assert (0 < count n dom thiefst d s) as Hp by lia.
  apply cnt_pos in Hp as (u & Hun & Hx). apply andb_true_iff in Hx as [Hx1 Hx2]. apply bool_decide_eq_true in Hx1.
  exists u. split; [done|]. split; [done|]. by left.
Qed.

(** Pointwise change of one pc, everything else irrelevant. *)
Lemma look_other u w p' d s s' : u <> w -> u < n -> dom u = d -> pc s' = fset w p' (pc s) -> epoch s' d = epoch s d ->
  look (epoch s d) (pc s u) -> A d s'.
Proof. intros Hne Hu Hd Hpc He Hl. left. exists u. rewrite Hpc, fset_ne, He; done. Qed.

Ltac apc w s := eapply (A_pc w _ _ s); [done|reflexivity|done|..|done]; rewrite ?fset_eq; unfold look; simpl.

(** A worker's step that does not touch active. *)
Lemma worker_A w c s s' tr d :
  w < n -> d < nd -> cinv s -> finv s -> worker w c s = Next s' tr ->
  (forall h, pc s w <> TAct h) -> pc s w <> TEnd -> 0 < active s ->
  A d s -> A d s'.
Proof.
  intros Hw Hdn C F Hs Hn1 Hn2 Hac HA. unfold LazyModel.worker, ret, notify, unregister, thief_sub in Hs.
  destruct (pc s w) eqn:Hp.
  all: try (repeat case_match; try done; simplify_eq; (eapply (A_pc w _ _ s); [done|reflexivity|done|..|done]);
    rewrite ?Hp; unfold look; simpl; intros; try done; simplify_eq; try tauto; try lia; fail).
  - (* WSub *)
    destruct (thief s (dom w)) as [|th] eqn:Hth; [done|]. injection Hs as <- <-.
    destruct (decide (dom w = d)) as [Hd|Hd]; [|by eapply (A_pc w _ _ s); [done|reflexivity|done|..|done]; rewrite ?Hp; simpl].
    case_decide as H1.
    + eapply (A_pc w _ _ s); [done|reflexivity|done|..|done]; rewrite ?Hp; unfold look; simpl; try done; by auto.
    + destruct (other_thief w d s) as (u & Hne & Hu & Hdu & Htu); [done|done|done|by rewrite Hp|congruence|].
      eapply (look_other u w _ d s); [done|done|done|reflexivity|done|by left].
  - (* TSub *)
    destruct (thief s (dom w)) as [|th] eqn:Hth; [done|]. injection Hs as <- <-.
    destruct (decide (dom w = d)) as [Hd|Hd]; [|eapply (A_pc w _ _ s); [done|reflexivity|done|..|done]; rewrite ?Hp; simpl; try done].
    case_decide as H1.
    + right. left. exists w. split; [done|]. simpl. by rewrite fset_eq.
    + destruct (other_thief w d s) as (u & Hne & Hu & Hdu & Htu); [done|done|done|by rewrite Hp|congruence|].
      eapply (look_other u w _ d s); [done|done|done|reflexivity|done|by left].
  - (* TNote *)
    injection Hs as <- <-. destruct (decide (dom w = d)) as [Hd|Hd].
    + assert (nofresh d (set_epoch (dom w) (S (epoch s (dom w))) s)) as Hnf by (rewrite Hd; by apply nofresh_epoch).
      right. right. split.
      * intros u Hu Hdu. simpl. unfold fset at 2. case_decide; [case_match; simpl; auto|by apply Hnf].
      * case_bool_decide as Hz; simpl.
        -- left. intros u Hu Hdu. simpl. unfold fset. case_decide; [by auto|]. intros Hb.
           destruct (pc s u) eqn:Hpu; try done. eapply (F2_waiters n dom (dom w) s C Hz u); [done|congruence|done].
        -- right. exists w. split; [done|]. simpl. by rewrite fset_eq.
    + apply (A_epoch (dom w)) in HA; [|done].
      eapply (A_pc w _ _ (set_epoch (dom w) (S (epoch s (dom w))) s)); [done|reflexivity|done|..|done]; simpl; rewrite ?Hp; simpl; done.
  - (* TWake *)
    destruct (wake_one _ _ _ _ _) as [s1|] eqn:Hwk; [|done]. injection Hs as <- <-.
    destruct (wake_one_classes n dom (dom w) (c_target c) s s1 Hwk) as (_ & _ & _ & _ & _ & He & _).
    assert (pc s1 w = TWake h) as Hp1.
    { apply wake_one_cases in Hwk as [(u & k & Hu & Hd & Hpu & ->)|[-> _]]; [|done]. simpl. rewrite fset_ne; [done|congruence]. }
    assert (A d s1) as HA1.
    { destruct (wake_one_cases n dom (dom w) (c_target c) s s1 Hwk) as [(u & k & Hu & Hd & Hpu & ->)|[-> _]]; [|done]. by apply A_unblock. }
    destruct (decide (dom w = d)) as [Hd|Hd].
    2: { eapply (A_pc w _ _ s1); [done|reflexivity|done|..|done]; rewrite ?Hp1; simpl; done. }
    eapply (A_pc w _ _ s1); [done|reflexivity|done|..|done]; rewrite ?Hp1; unfold look; simpl; try done; try (intros _ [?|?]; done).
    intros Hnf1 _. right.
    assert (nofresh d s) as Hnf.
    { apply wake_one_cases in Hwk as [(u & k & Hu & Hdu & Hpu & ->)|[-> _]]; [|done].
      intros v Hv Hdv. specialize (Hnf1 v Hv Hdv). simpl in Hnf1. unfold fset in Hnf1. case_decide as E; [|done]. subst v. by rewrite Hpu. }
    rewrite Hd in Hwk. destruct (wake_one_good d (c_target c) s s1 Hwk Hnf) as [_ [(u & Hu & Hdu & Hl)|Hnb]].
    + eapply (look_other u w _ d s1); [|done|done|reflexivity|done|done]. intros ->. rewrite Hp1 in Hl. by destruct Hl.
    + right. right. split.
      * intros u Hu Hdu. simpl. unfold fset. case_decide; [by auto|by apply Hnf1].
      * left. intros u Hu Hdu. simpl. unfold fset. case_decide; [by auto|by apply Hnb].
  - (* TDom *)
    case_decide as Hi.
    + injection Hs as <- <-. case_decide as Hth.
      * eapply (A_pc w _ _ s); [done|reflexivity|done|..|done]; rewrite ?Hp; unfold look; simpl; try done; try tauto.
      * eapply (A_pc w _ _ s); [done|reflexivity|done|..|done]; rewrite ?Hp; unfold look; simpl; try done; try tauto.
        intros Hle. destruct (decide (d = d0)) as [->|Hne]; [right|left; lia].
        destruct (some_thief d0 s C Hth) as (u & Hu & Hdu & Hl). eapply (look_other u w _ d0 s); [|done|done|reflexivity|done|done].
        intros ->. rewrite Hp in Hl. by destruct Hl.
    + injection Hs as <- <-. eapply (A_pc w _ _ s); [done|reflexivity|done|..|done]; rewrite ?Hp; unfold look; simpl; try done; try tauto. lia.
  - (* TDomNote *)
    injection Hs as <- <-. destruct (decide (d0 = d)) as [->|Hd].
    + assert (nofresh d (set_epoch d (S (epoch s d)) s)) as Hnf by (by apply nofresh_epoch).
      right. right. split.
      * intros u Hu Hdu. simpl. unfold fset at 2. case_decide; [case_match; simpl; auto|by apply Hnf].
      * case_bool_decide as Hz; simpl.
        -- left. intros u Hu Hdu. simpl. unfold fset. case_decide; [by auto|]. intros Hb.
           destruct (pc s u) eqn:Hpu; try done. eapply (F2_waiters n dom d s C Hz u); [done|congruence|done].
        -- right. exists w. split; [done|]. simpl. by rewrite fset_eq.
    + apply (A_epoch d0) in HA; [|done].
      eapply (A_pc w _ _ (set_epoch d0 (S (epoch s d0)) s)); [done|reflexivity|done|..|done]; simpl; rewrite ?Hp; unfold look; simpl;
        case_bool_decide; simpl; try done; try tauto; intros; left; lia.
  - (* TDomWake *)
    destruct (wake_one _ _ _ _ _) as [s1|] eqn:Hwk; [|done]. injection Hs as <- <-.
    destruct (wake_one_classes n dom d0 (c_target c) s s1 Hwk) as (_ & _ & _ & _ & _ & He & _).
    assert (pc s1 w = TDomWake h d0) as Hp1.
    { apply wake_one_cases in Hwk as [(u & k & Hu & Hd & Hpu & ->)|[-> _]]; [|done]. simpl. rewrite fset_ne; [done|congruence]. }
    assert (A d s1) as HA1.
    { destruct (wake_one_cases n dom d0 (c_target c) s s1 Hwk) as [(u & k & Hu & Hd & Hpu & ->)|[-> _]]; [|done]. by apply A_unblock. }
    eapply (A_pc w _ _ s1); [done|reflexivity|done|..|done]; rewrite ?Hp1; unfold look; simpl; try done; try (intros _ [?|?]; done).
    { intros. left. lia. }
    intros Hnf1 ->. right.
    assert (nofresh d s) as Hnf.
    { apply wake_one_cases in Hwk as [(u & k & Hu & Hdu & Hpu & ->)|[-> _]]; [|done].
      intros v Hv Hdv. specialize (Hnf1 v Hv Hdv). simpl in Hnf1. unfold fset in Hnf1. case_decide as E; [|done]. subst v. by rewrite Hpu. }
    destruct (wake_one_good d (c_target c) s s1 Hwk Hnf) as [_ [(u & Hu & Hdu & Hl)|Hnb]].
    + eapply (look_other u w _ d s1); [|done|done|reflexivity|done|done]. intros ->. rewrite Hp1 in Hl. by destruct Hl.
    + right. right. split.
      * intros u Hu Hdu. simpl. unfold fset. case_decide; [by auto|by apply Hnf1].
      * left. intros u Hu Hdu. simpl. unfold fset. case_decide; [by auto|by apply Hnb].
  - (* XNote *)
    injection Hs as <- <-. apply (A_epoch (dom w)) in HA; [|done].
    eapply (A_pc w _ _ (set_epoch (dom w) (S (epoch s (dom w))) s)); [done|reflexivity|done|..|done]; simpl; rewrite ?Hp; unfold look; simpl;
      case_bool_decide; simpl; try done; try tauto.
  - (* XWake *)
    injection Hs as <- <-. apply (A_wake_all (dom w)) in HA.
    assert (pc (wake_all dom (dom w) s) w = XWake) as Hp1 by (simpl; case_decide; by rewrite Hp).
    eapply (A_pc w _ _ (wake_all dom (dom w) s)); [done|reflexivity|done|..|done]; rewrite ?Hp1; unfold look; simpl; try done; try tauto.
  - (* XSub *)
    destruct (thief s (dom w)) as [|th] eqn:Hth; [done|]. injection Hs as <- <-.
    destruct (decide (dom w = d)) as [Hd|Hd]; [|by eapply (A_pc w _ _ s); [done|reflexivity|done|..|done]; rewrite ?Hp; simpl].
    assert (fl2 n dom d s) as Hfl by (left; exists w; rewrite Hp; done).
    right. right. split.
    + intros u Hu Hdu. simpl. unfold fset. case_decide; [by auto|]. intros Hf.
      assert (late2 (pc s u) (epoch s d)) as Hl by (destruct (pc s u); simpl in *; done).
      by eapply (fi_1 _ _ _ s F d Hdn (fl2_fl1 n dom d s Hfl) u (epoch s d)).
    + left. intros u Hu Hdu. simpl. unfold fset. case_decide; [by auto|]. intros Hb. destruct (pc s u) eqn:Hpu; try done.
      by eapply (fi_2 _ _ _ s F d Hdn Hfl u).
Qed.

Lemma tinv_init : tinv init. Proof. intros H. simpl in H. lia. Qed.

Lemma worker_active w c s s' tr : worker w c s = Next s' tr -> (forall h, pc s w <> TAct h) -> pc s w <> TEnd -> active s' = active s.
Proof.
  intros Hs Hn1 Hn2. unfold LazyModel.worker, ret, notify, unregister, thief_sub in Hs.
  destruct (pc s w) eqn:Hp; try (by repeat case_match; try done; simplify_eq).
  - destruct (wake_one _ _ _ _ _) as [s1|] eqn:Hwk; [|done]. injection Hs as <- <-. by apply wake_one_classes in Hwk as (_ & _ & _ & ? & _).
  - by destruct (Hn1 h).
  - destruct (wake_one _ _ _ _ _) as [s1|] eqn:Hwk; [|done]. injection Hs as <- <-. by apply wake_one_classes in Hwk as (_ & _ & _ & ? & _).
Qed.

Lemma step_tinv l s s' tr : cinv s -> finv s -> tinv s -> step l s = Next s' tr -> tinv s'.
Proof.
  intros C F I Hs. destruct l as [w c|a w j| |w]; simpl in Hs.
  - case_decide as Hw; [|done].
    assert ({pc s w = TEnd} + {pc s w <> TEnd}) as [Hp|Hne] by (destruct (pc s w); auto; right; congruence).
    { unfold LazyModel.worker in Hs. rewrite Hp in Hs. destruct (active s) as [|ac] eqn:Hac; [done|]. injection Hs as <- <-.
      intros _ d Hd. eapply (A_pc w _ _ s); [done|reflexivity|done|..|apply I; [lia|done]]; rewrite ?Hp; simpl; try done. intros _ [?|?]; done. }
    assert ({h | pc s w = TAct h} + {forall h, pc s w <> TAct h}) as [[h Hp]|Hn] by (destruct (pc s w); eauto; right; congruence).
    { unfold LazyModel.worker, ret in Hs. rewrite Hp in Hs. injection Hs as <- <-. intros _ d Hd. case_decide as Hz.
      - right. left. exists w. split; [done|]. simpl. rewrite fset_eq. simpl. lia.
      - eapply (A_pc w _ _ s); [done|reflexivity|done|..|apply I; [lia|done]]; rewrite ?Hp; simpl; try done. intros _ [?|?]; done. }
    intros Hac d Hd. rewrite (worker_active w c s s' tr Hs Hn Hne) in Hac. eapply worker_A; try done. by apply I.
  - unfold agent, ret, notify in Hs. destruct (ag s a) as [|w'|d] eqn:Ha.
    + case_decide; [|done]. injection Hs as <- <-. done.
    + injection Hs as <- <-. intros Hac d Hd. by apply (A_epoch (dom w') d s C), I.
    + injection Hs as <- <-. intros Hac d' Hd. by apply (A_wake_all d d' s), I.
  - unfold destructor, ret, notify in Hs. destruct (dt s) eqn:Hdt.
    + injection Hs as <- <-. done.
    + case_decide as Hdn; injection Hs as <- <-; [|done]. intros Hac d' Hd. by apply (A_epoch d d' s C), I.
    + injection Hs as <- <-. intros Hac d' Hd. by apply (A_wake_all d d' s), I.
    + case_match; [|done]. injection Hs as <- <-. done.
    + done.
  - case_decide as Hw; [|done]. unfold spurious, ret in Hs. destruct (pc s w) eqn:Hp; try done. injection Hs as <- <-.
    intros Hac d Hd. apply A_unblock; [done|done|]. by apply I.
Qed.

Theorem reach_all s h : reach n nd dom s h -> cinv s /\ finv s /\ jinv n dom s /\ tinv s.
Proof.
  induction 1 as [|s h l s' tr Hr (C & F & J & T) Hs].
  - split_and!; [apply cinv_init|apply finv_init|apply jinv_init|apply tinv_init].
  - split_and!; [by eapply step_cinv|by eapply step_finv|by eapply step_jinv|by eapply step_tinv].
Qed.
End Thief.
