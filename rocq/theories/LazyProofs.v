(** * Invariants of lazy_pool: counters and keys. *)

From stdpp Require Import prelude list.
From Coq Require Import Lia.
From Verif Require Import PoolCommon LazyModel.

Lemma fset_eq {B} i (x : B) f : fset i x f i = x. Proof. unfold fset. by rewrite decide_True. Qed.
Lemma fset_ne {B} i j (x : B) f : j <> i -> fset i x f j = f j. Proof. intros. unfold fset. by rewrite decide_False. Qed.

(** ** Counting *)

Definition b2n (b : bool) : nat := if b then 1 else 0.
Fixpoint cnt (n : nat) (f : nat -> bool) : nat := match n with O => 0 | S n => cnt n f + b2n (f n) end.

Lemma cnt_ext n f g : (forall u, u < n -> f u = g u) -> cnt n f = cnt n g.
Proof. induction n as [|n IH]; intros H; simpl; [done|]. rewrite IH by (intros; apply H; lia). rewrite H by lia. done. Qed.
Lemma cnt_upd n w f g : w < n -> (forall u, u <> w -> f u = g u) -> cnt n f + b2n (g w) = cnt n g + b2n (f w).
Proof.
  induction n as [|n IH]; intros Hw H; [lia|]. simpl. destruct (decide (w = n)) as [->|Hne].
  - rewrite (cnt_ext n f g); [lia|]. intros u Hu. apply H. lia.
  - rewrite (H n) by lia. specialize (IH ltac:(lia) H). lia.
Qed.
Lemma cnt_pos n f : 0 < cnt n f <-> exists u, u < n /\ f u = true.
Proof.
  induction n as [|n IH]; simpl; [split; [lia|intros (u & ? & ?); lia]|].
  destruct (f n) eqn:Hf; simpl.
  - split; [|lia]. intros _. exists n. split; [lia|done].
  - rewrite Nat.add_0_r, IH. split; intros (u & Hu & Hfu); exists u; (split; [|done]); [lia|].
    destruct (decide (u = n)) as [->|]; [congruence|lia].
Qed.
Lemma cnt_zero n f : cnt n f = 0 <-> forall u, u < n -> f u = false.
Proof.
  split.
  - intros H u Hu. destruct (f u) eqn:Hf; [|done]. assert (0 < cnt n f) by (apply cnt_pos; eauto). lia.
  - intros H. destruct (cnt n f) eqn:Hc; [done|]. assert (0 < cnt n f) as Hp by lia. apply cnt_pos in Hp as (u & Hu & Hf).
    rewrite H in Hf; done.
Qed.
Lemma cnt_le n f : cnt n f <= n.
Proof. induction n as [|n IH]; simpl; [lia|]. destruct (f n); simpl; lia. Qed.
Lemma cnt_full n f : cnt n f = n -> forall u, u < n -> f u = true.
Proof.
  induction n as [|n IH]; intros H u Hu; [lia|]. simpl in H. pose proof (cnt_le n f).
  destruct (f n) eqn:Hf; simpl in H; [|lia]. destruct (decide (u = n)) as [->|]; [done|]. apply IH; lia.
Qed.

(** ** Classes of program counters *)

(** Counted in thief. *)
Definition thiefst (p : wpc) : bool :=
  match p with
  | WPop1 | WSteal | WPrep | WPop2 _ | WCancelJob _ | WStop _ | WSub _ | TSub _ | XCancel | XNote | XWake | XSub => true
  | _ => false
  end.
Definition activest (p : wpc) : bool :=
  match p with TDom _ _ | TDomNote _ _ | TDomWake _ _ | TRun _ | TEnd => true | _ => false end.
(** Registered as a waiter. *)
Definition regst (p : wpc) : bool :=
  match p with
  | WPop2 _ | WCancelJob _ | WStop _ | WSub _ | WAct _ | WCancel | WWait _ | WBlocked _ | WUnreg | XCancel => true
  | _ => false
  end.
Definition arrst (p : wpc) : bool := match p with XLatch | XDone => true | _ => false end.
Definition keyof (p : wpc) : option nat :=
  match p with WPop2 k | WStop k | WSub k | WAct k | WWait k | WBlocked k => Some k | _ => None end.

Section Inv.
Context (n nd : nat) (dom : nat -> nat).
Notation worker := (worker n nd dom).
Notation step := (step n nd dom).
Notation reach := (reach n nd dom).

Definition count (c : wpc -> bool) (d : nat) (s : st) : nat := cnt n (fun u => bool_decide (dom u = d) && c (pc s u)).
Definition total (c : wpc -> bool) (s : st) : nat := cnt n (fun u => c (pc s u)).

Record cinv (s : st) : Prop := CInv {
  ci_thief : forall d, thief s d = count thiefst d s;
  ci_wait : forall d, waiters s d = count regst d s;
  ci_active : active s = total activest s;
  ci_arr : arrived s = total arrst s;
  ci_key : forall u k, u < n -> keyof (pc s u) = Some k -> k <= epoch s (dom u)
}.

Lemma count_upd (c : wpc -> bool) d w p' s s' : w < n -> pc s' = fset w p' (pc s) ->
  count c d s' + (if decide (dom w = d) then b2n (c (pc s w)) else 0) = count c d s + (if decide (dom w = d) then b2n (c p') else 0).
Proof.
  intros Hw Hs. unfold count.
  pose proof (cnt_upd n w (fun u => bool_decide (dom u = d) && c (pc s' u)) (fun u => bool_decide (dom u = d) && c (pc s u)) Hw) as H.
  rewrite Hs in *. simpl in H. rewrite fset_eq in H.
  assert (forall u, u <> w -> bool_decide (dom u = d) && c (fset w p' (pc s) u) = bool_decide (dom u = d) && c (pc s u)) as Hne.
  { intros u Hu. by rewrite fset_ne. }
  specialize (H Hne). destruct (decide (dom w = d)) as [Hd|Hd].
  - rewrite bool_decide_true in H by done. simpl in H. done.
  - rewrite bool_decide_false in H by done. simpl in H. lia.
Qed.
Lemma total_upd (c : wpc -> bool) w p' s s' : w < n -> pc s' = fset w p' (pc s) ->
  total c s' + b2n (c (pc s w)) = total c s + b2n (c p').
Proof.
  intros Hw Hs. unfold total. pose proof (cnt_upd n w (fun u => c (pc s' u)) (fun u => c (pc s u)) Hw) as H.
  simpl in H. rewrite Hs in *. rewrite fset_eq in H. apply H. intros u Hu. by rewrite fset_ne.
Qed.
Lemma count_ext (c : wpc -> bool) d s s' : (forall u, c (pc s' u) = c (pc s u)) -> count c d s' = count c d s.
Proof. intros H. apply cnt_ext. intros u _. by rewrite H. Qed.
Lemma total_ext (c : wpc -> bool) s s' : (forall u, c (pc s' u) = c (pc s u)) -> total c s' = total c s.
Proof. intros H. apply cnt_ext. intros u _. by rewrite H. Qed.

(** Waking does not change the classes. *)
Definition same_classes (s s' : st) : Prop :=
  (forall u, thiefst (pc s' u) = thiefst (pc s u)) /\ (forall u, regst (pc s' u) = regst (pc s u)) /\
  (forall u, activest (pc s' u) = activest (pc s u)) /\ (forall u, arrst (pc s' u) = arrst (pc s u)) /\
  (forall u, keyof (pc s' u) = keyof (pc s u)).

Lemma wake_all_classes d s : same_classes s (wake_all dom d s).
Proof. unfold wake_all, same_classes. simpl. split_and!; intros u; case_decide; try done; by destruct (pc s u). Qed.
Lemma wake_pc_classes t k s : pc s t = WBlocked k -> same_classes s (set_pc t (WWait k) s).
Proof.
  intros Ht. unfold same_classes. simpl. split_and!; intros u; unfold fset; case_decide; try done; subst; by rewrite Ht.
Qed.
Lemma wake_one_classes d t s s' : wake_one n dom d t s = Some s' -> same_classes s s' /\
  thief s' = thief s /\ waiters s' = waiters s /\ active s' = active s /\ arrived s' = arrived s /\ epoch s' = epoch s /\
  stop s' = stop s /\ q s' = q s /\ ag s' = ag s /\ dt s' = dt s.
Proof.
  unfold wake_one. destruct t as [t|].
  - destruct (pc s t) eqn:Ht; try done. case_decide; [|done]. intros [= <-]. split; [by eapply wake_pc_classes|done].
  - case_match; [done|]. intros [= <-]. done.
Qed.

Lemma cinv_classes s s' : same_classes s s' ->
  thief s' = thief s -> waiters s' = waiters s -> active s' = active s -> arrived s' = arrived s -> epoch s' = epoch s ->
  cinv s -> cinv s'.
Proof.
  intros (H1 & H2 & H3 & H4 & H5) E1 E2 E3 E4 E5 [I1 I2 I3 I4 I5]. split.
  - intros d. rewrite E1, I1. symmetry. by apply count_ext.
  - intros d. rewrite E2, I2. symmetry. by apply count_ext.
  - rewrite E3, I3. symmetry. by apply total_ext.
  - rewrite E4, I4. symmetry. by apply total_ext.
  - intros u k Hu Hk. rewrite E5. rewrite H5 in Hk. eauto.
Qed.

(** A step of worker [w] from [p] to [p'] that changes the counters accordingly. *)
Lemma cinv_pc w p' s s' :
  w < n -> pc s' = fset w p' (pc s) ->
  (forall d, thief s' d + (if decide (dom w = d) then b2n (thiefst (pc s w)) else 0) = thief s d + (if decide (dom w = d) then b2n (thiefst p') else 0)) ->
  (forall d, waiters s' d + (if decide (dom w = d) then b2n (regst (pc s w)) else 0) = waiters s d + (if decide (dom w = d) then b2n (regst p') else 0)) ->
  active s' + b2n (activest (pc s w)) = active s + b2n (activest p') ->
  arrived s' + b2n (arrst (pc s w)) = arrived s + b2n (arrst p') ->
  (forall d, epoch s d <= epoch s' d) ->
  (forall k, keyof p' = Some k -> keyof (pc s w) = Some k \/ k <= epoch s' (dom w)) ->
  cinv s -> cinv s'.
Proof.
  intros Hw Hpc H1 H2 H3 H4 H5 H6 [I1 I2 I3 I4 I5]. split.
  - intros d. pose proof (count_upd thiefst d w p' s s' Hw Hpc). specialize (H1 d). rewrite I1 in H1. lia.
  - intros d. pose proof (count_upd regst d w p' s s' Hw Hpc). specialize (H2 d). rewrite I2 in H2. lia.
  - pose proof (total_upd activest w p' s s' Hw Hpc). rewrite I3 in H3. lia.
  - pose proof (total_upd arrst w p' s s' Hw Hpc). rewrite I4 in H4. lia.
  - intros u k Hu Hk. rewrite Hpc in Hk. unfold fset in Hk. case_decide as E; [subst u|].
    + destruct (H6 k Hk) as [Hk'|]; [|done]. specialize (I5 w k Hu Hk'). specialize (H5 (dom w)). lia.
    + specialize (I5 u k Hu Hk). specialize (H5 (dom u)). lia.
Qed.

Lemma cinv_init : cinv init.
Proof.
  assert (forall c d, c WTop = false -> count c d init = 0) as Hc.
  { intros c d H. apply cnt_zero. intros u _. simpl. rewrite H. apply andb_false_r. }
  assert (forall c, c WTop = false -> total c init = 0) as Ht.
  { intros c H. apply cnt_zero. intros u _. simpl. done. }
  split; simpl; intros; try (rewrite Hc; done); try (rewrite Ht; done). done.
Qed.

(** The unregistration and decrement assertions hold. *)
Lemma reg_pos w s : w < n -> cinv s -> regst (pc s w) = true -> 0 < waiters s (dom w).
Proof. intros Hw I Hr. rewrite (ci_wait s I). apply cnt_pos. exists w. split; [done|]. by rewrite bool_decide_true. Qed.
Lemma thief_pos w s : w < n -> cinv s -> thiefst (pc s w) = true -> 0 < thief s (dom w).
Proof. intros Hw I Hr. rewrite (ci_thief s I). apply cnt_pos. exists w. split; [done|]. by rewrite bool_decide_true. Qed.
Lemma active_pos w s : w < n -> cinv s -> activest (pc s w) = true -> 0 < active s.
Proof. intros Hw I Hr. rewrite (ci_active s I). apply cnt_pos. by exists w. Qed.

Ltac cpc :=
  match goal with
  | Hw : ?w < n, Hp : pc ?s ?w = ?p |- cinv ?s' =>
    eapply (cinv_pc w _ s s' Hw); [reflexivity|..]; rewrite ?Hp; simpl;
      try (intros ?; unfold fset; repeat case_decide; subst; simpl; lia);
      try lia; try (intros ? ?; simplify_eq; by auto); try done
  end.

Lemma worker_cinv w c s s' tr : w < n -> cinv s -> worker w c s = Next s' tr -> cinv s'.
Proof.
  intros Hw I Hs. unfold LazyModel.worker, ret, notify, unregister, thief_sub in Hs.
  pose proof (reg_pos w s Hw I) as Hreg. pose proof (thief_pos w s Hw I) as Hth. pose proof (active_pos w s Hw I) as Hac.
  destruct (pc s w) eqn:Hp; simpl in Hreg, Hth, Hac.
  all: try (repeat case_match; try done; simplify_eq; cpc; fail).
  1,2: (destruct (wake_one _ _ _ _ _) as [s1|] eqn:Hwk; [|done]; injection Hs as <- <-;
    apply wake_one_classes in Hwk as (Hcl & E1 & E2 & E3 & E4 & E5 & _);
    assert (cinv s1) as I1 by (by eapply cinv_classes);
    destruct Hcl as (C1 & C2 & C3 & C4 & C5);
    eapply (cinv_pc w _ s1); [done|reflexivity|..]; simpl;
    rewrite ?C1, ?C2, ?C3, ?C4, ?C5, ?Hp; simpl;
    try (intros ?; unfold fset; repeat case_decide; subst; simpl; lia);
    try lia; try done).
  injection Hs as <- <-. assert (cinv (wake_all dom (dom w) s)) as I1 by (eapply cinv_classes; [apply wake_all_classes|done..]).
  destruct (wake_all_classes (dom w) s) as (C1 & C2 & C3 & C4 & C5).
  eapply (cinv_pc w _ (wake_all dom (dom w) s)); [done|reflexivity|..];
    rewrite ?C1, ?C2, ?C3, ?C4, ?C5, ?Hp; simpl; try done.
Qed.

Lemma step_cinv l s s' tr : cinv s -> step l s = Next s' tr -> cinv s'.
Proof.
  intros I Hs. destruct l as [w c|a w j| |w]; simpl in Hs.
  - case_decide; [|done]. by eapply worker_cinv.
  - unfold agent, ret, notify in Hs.
    destruct (ag s a) as [|w'|d].
    + case_decide; [|done]. injection Hs as <- <-. by apply (cinv_classes s).
    + injection Hs as <- <-. destruct I as [I1 I2 I3 I4 I5]. split; simpl; try done.
      intros u k Hu Hk. specialize (I5 u k Hu Hk). unfold fset. case_decide; [|done].
      match goal with E : dom u = dom w' |- _ => rewrite <- E end. lia.
    + injection Hs as <- <-. eapply (cinv_classes s); [apply (wake_all_classes d s)|done..].
  - unfold destructor, ret, notify in Hs. destruct (dt s).
    + injection Hs as <- <-. by apply (cinv_classes s).
    + case_decide; injection Hs as <- <-; [|by apply (cinv_classes s)].
      destruct I as [I1 I2 I3 I4 I5]. split; simpl; try done.
      intros u k Hu Hk. specialize (I5 u k Hu Hk). unfold fset. case_decide; [|done].
      match goal with E : dom u = _ |- _ => rewrite <- E end. lia.
    + injection Hs as <- <-. eapply (cinv_classes s); [apply (wake_all_classes _ s)|done..].
    + case_match; [|done]. injection Hs as <- <-. by apply (cinv_classes s).
    + done.
  - case_decide; [|done]. unfold spurious, ret in Hs. destruct (pc s w) eqn:Hp; try done. injection Hs as <- <-.
    eapply (cinv_classes s); [by apply wake_pc_classes|done..].
Qed.

Theorem reach_cinv s h : reach s h -> cinv s.
Proof. induction 1; [apply cinv_init|by eapply step_cinv]. Qed.

(** No step is undefined. *)
Lemma step_defined l s : cinv s -> step l s <> Undef.
Proof.
  intros I Hs. destruct l as [w c|a w j| |w]; simpl in Hs.
  - case_decide; [|done]. unfold LazyModel.worker, ret, unregister, thief_sub, notify in Hs.
    pose proof (reg_pos w s ltac:(done) I) as Hreg. pose proof (thief_pos w s ltac:(done) I) as Hth. pose proof (active_pos w s ltac:(done) I) as Hac.
    destruct (pc s w) eqn:Hp; simpl in *; repeat case_match; try done;
      try (specialize (Hreg eq_refl); lia); try (specialize (Hth eq_refl); lia); try (specialize (Hac eq_refl); lia).
  - unfold agent, ret, notify in Hs. repeat case_match; done.
  - unfold destructor, ret, notify in Hs. repeat case_match; done.
  - unfold spurious, ret in Hs. repeat case_match; done.
Qed.
End Inv.
