(** * busy_pool and unit_pool: proofs. *)

From stdpp Require Import prelude list.
From Coq Require Import Lia.
From Verif Require Import PoolCommon PoolFair PoolSpec BusyModel BusySpec.
From Verif Require LazyProofs.
Local Notation cnt := LazyProofs.cnt.
Local Notation b2n := LazyProofs.b2n.

Lemma fset_eq {B} i (x : B) f : fset i x f i = x. Proof. unfold fset. by rewrite decide_True. Qed.
Lemma fset_ne {B} i j (x : B) f : j <> i -> fset i x f j = f j. Proof. intros. unfold fset. by rewrite decide_False. Qed.

(** ** Histories *)

Global Instance pev_eq_dec : EqDecision pev. Proof. solve_decision. Defined.

Lemma pushes_app w t1 t2 : pushes w (t1 ++ t2) = pushes w t1 ++ pushes w t2.
Proof. induction t1 as [|[u j|u js|] t1 IH]; simpl; rewrite ?IH; try done. by case_decide. Qed.
Lemma ran_app w t1 t2 : ran w (t1 ++ t2) = ran w t1 ++ ran w t2.
Proof. induction t1 as [|[u j|u js|] t1 IH]; simpl; rewrite ?IH; try done. case_decide; [by rewrite app_assoc|done]. Qed.
Lemma upto_stop_app t1 t2 : upto_stop (t1 ++ t2) = if decide (EvStop ∈ t1) then upto_stop t1 else t1 ++ upto_stop t2.
Proof.
  induction t1 as [|e t1 IH]; [by rewrite decide_False by apply not_elem_of_nil|].
  destruct (decide (EvStop ∈ e :: t1)) as [H|H]; rewrite elem_of_cons in H.
  - destruct e as [u j|u js|]; cbn [upto_stop app]; [..|done]; rewrite IH, decide_True; [done|by destruct H|done|by destruct H].
  - destruct e as [u j|u js|]; cbn [upto_stop app]; rewrite ?IH, ?decide_False; try done; try (by intros ?; apply H; right). exfalso. apply H. by left.
Qed.
Lemma elem_rev (e : pev) t : e ∈ rev t <-> e ∈ t.
Proof. by rewrite !elem_of_list_In, <- in_rev. Qed.
Lemma upto_stop_prefix t : upto_stop t `prefix_of` t.
Proof. induction t as [|[u j|u js|] t IH]; simpl; [done|by apply prefix_cons..|by eexists]. Qed.
Lemma pushes_prefix w t1 t2 : t1 `prefix_of` t2 -> pushes w t1 `prefix_of` pushes w t2.
Proof. intros [t ->]. rewrite pushes_app. by eexists. Qed.

Section Busy.
Context (n : nat) (unit : bool).
Notation worker := (worker n unit).
Notation step := (step n unit).
Notation reach := (reach n unit).

(** What worker [w] has taken and not yet run. *)
Definition held (p : wpc) : list nat := match p with BRun h | BDrainRun h => h | _ => [] end.
(** Past the test of the stop flag; out of the loops. *)
Definition stopping (p : wpc) : Prop := match p with BTest | BPop | BSteal | BRun _ => False | _ => True end.
Definition left (p : wpc) : Prop := match p with XStop | XArrive | XLatch | XDone => True | _ => False end.
Definition arrst (p : wpc) : bool := match p with XLatch | XDone => true | _ => false end.
Definition total (s : st) : nat := cnt n (fun u => arrst (pc s u)).

Record binv (s : st) (h : list pev) : Prop := BInv {
  bi_jobs : forall w, pushes w (rev h) = ran w (rev h) ++ held (pc s w) ++ q s w;
  bi_stop : forall w, stopping (pc s w) -> stop s = true;
  bi_ev : stop s = true <-> EvStop ∈ h;
  bi_left : forall w, left (pc s w) -> pushes w (upto_stop (rev h)) `prefix_of` ran w (rev h);
  bi_dt : dt s = true -> forall w, w < n -> pc s w = XDone;
  bi_arr : if unit then forall w, pc s w <> XStop /\ pc s w <> XArrive /\ pc s w <> XLatch else arrived s = total s
}.

Lemma binv_init : binv init [].
Proof.
  split; simpl; try done.
  - split; [done|]. intros H. by apply elem_of_nil in H.
  - destruct unit; [done|]. symmetry. apply LazyProofs.cnt_zero. done.
Qed.

(** A step of worker [w] to [p'] with events [tr] that are its own, not [EvStop]. *)
Lemma binv_worker w p' s s' h tr :
  w < n -> pc s' = fset w p' (pc s) -> (forall u, u <> w -> q s' u = q s u) -> stop s' = stop s -> dt s' = dt s -> (dt s = true -> pc s w = XDone -> p' = XDone) ->
  (tr = [] \/ exists js, tr = [EvRun w js]) ->
  held (pc s w) ++ q s w = ran w tr ++ held p' ++ q s' w ->
  (stopping p' -> stop s = true) ->
  (left p' -> left (pc s w) \/ (held (pc s w) ++ q s w = [] /\ stop s = true)) ->
  (if unit then p' <> XStop /\ p' <> XArrive /\ p' <> XLatch else arrived s' + b2n (arrst (pc s w)) = arrived s + b2n (arrst p')) ->
  binv s h -> binv s' (rev tr ++ h).
Proof.
  intros Hw Hpc Hq Hst Hdt Hdn Htr Hj Hs1 Hl Ha [I1 I2 I3 I4 I5 I6].
  assert (forall u, pushes u tr = []) as Hpt by (intros u; destruct Htr as [->|[js ->]]; done).
  assert (forall u, u <> w -> ran u tr = []) as Hrt.
  { intros u Hu. destruct Htr as [->|[js ->]]; [done|]. simpl. by rewrite decide_False. }
  assert (EvStop ∉ tr) as Hns.
  { destruct Htr as [->|[js ->]]; [apply not_elem_of_nil|]. intros H. apply elem_of_list_singleton in H. done. }
  assert (rev (rev tr ++ h) = rev h ++ tr) as Erev by (by rewrite rev_app_distr, rev_involutive).
  assert (forall t, upto_stop (t ++ tr) = if decide (EvStop ∈ t) then upto_stop t else t ++ tr) as Hup.
  { intros t. rewrite upto_stop_app. case_decide; [done|]. f_equal. destruct Htr as [->|[js ->]]; done. }
  split.
  - intros u. rewrite Erev, pushes_app, Hpt, app_nil_r, I1, ran_app, Hpc, <- !app_assoc. f_equal. destruct (decide (u = w)) as [->|Hne].
    + by rewrite fset_eq.
    + rewrite fset_ne, Hq, Hrt by done. done.
  - intros u. rewrite Hpc, Hst. unfold fset. case_decide; [done|]. apply I2.
  - rewrite Hst, I3, elem_of_app. split; [by right|intros [H|]; [|done]]. exfalso. by apply Hns, elem_rev.
  - intros u Hlu. rewrite Erev, Hup, ran_app.
    assert (pushes u (if decide (EvStop ∈ rev h) then upto_stop (rev h) else rev h ++ tr) = pushes u (upto_stop (rev h))) as ->.
    { case_decide as E; [done|]. rewrite pushes_app, Hpt, app_nil_r. rewrite <- (app_nil_r (rev h)) at 2. rewrite upto_stop_app, decide_False by done.
      simpl. by rewrite app_nil_r. }
    rewrite Hpc in Hlu. unfold fset in Hlu. case_decide as E; [subst u|].
    + destruct (Hl Hlu) as [Hl'|[Hz _]].
      * etrans; [by apply I4|]. by eexists.
      * etrans; [apply pushes_prefix, upto_stop_prefix|]. rewrite I1, Hz, app_nil_r. by eexists.
    + etrans; [by apply I4|]. by eexists.
  - rewrite Hdt, Hpc. intros Hd u Hu. unfold fset. case_decide; [subst u|by apply I5]. apply Hdn; [done|by apply I5].
  - destruct unit.
    + intros u. rewrite Hpc. unfold fset. case_decide; [done|apply I6].
    + unfold total. pose proof (LazyProofs.cnt_upd n w (fun u => arrst (pc s' u)) (fun u => arrst (pc s u)) Hw) as Hc. simpl in Hc. rewrite Hpc in *.
      rewrite fset_eq in Hc. rewrite I6 in Ha. unfold total in Ha.
      assert (forall u, u <> w -> arrst (fset w p' (pc s) u) = arrst (pc s u)) as Hne by (intros u Hu; by rewrite fset_ne). specialize (Hc Hne). lia.
Qed.

(** The stop flag and its event. *)
Lemma binv_stop s h : binv s h -> binv (St true (arrived s) (q s) (pc s) (dt s)) (rev (if stop s then [] else [EvStop]) ++ h).
Proof.
  intros I. destruct (stop s) eqn:Hst; [destruct s; simpl in *; by rewrite Hst in I|]. destruct I as [I1 I2 I3 I4 I5 I6].
  simpl. split; simpl; try done.
  - intros w. by rewrite pushes_app, ran_app, I1, <- !app_assoc, app_nil_r.
  - split; [intros _; left|done].
  - intros w Hl. specialize (I2 w). assert (stopping (pc s w)) as Hx by (by destruct (pc s w)). specialize (I2 Hx). congruence.
Qed.

Ltac bw w s Hp :=
  eapply (binv_worker w _ s); [done|reflexivity|try done|try done|try done| | | | | | |done]; rewrite ?Hp; simpl; rewrite ?fset_eq;
    try done; try (by intros; rewrite ?fset_ne); try (by left); try (by right; eexists).

Lemma step_binv x s s' tr h : binv s h -> step x s = Next s' tr -> binv s' (rev tr ++ h).
Proof.
  intros I Hs. pose proof I as [I1 I2 I3 I4 I5 I6]. destruct x as [w c|w j| |]; simpl in Hs.
  - case_decide as Hw; [|done]. unfold BusyModel.worker in Hs. pose proof (I2 w) as I2w.
    destruct (pc s w) eqn:Hp.
    + (* BTest *) injection Hs as <- <-. destruct (stop s) eqn:Hst; bw w s Hp; by destruct unit.
    + (* BPop *) destruct (q s w) eqn:Hq; injection Hs as <- <-.
      * bw w s Hp; rewrite ?Hq; simpl; by destruct unit.
      * bw w s Hp; rewrite ?Hq, ?app_nil_r; simpl; try done. by destruct unit.
    + (* BSteal *) injection Hs as <- <-. destruct c; bw w s Hp; by destruct unit.
    + (* BRun *) injection Hs as <- <-. bw w s Hp; [|by destruct unit]. by rewrite decide_True, app_nil_r.
    + (* BDrain *) specialize (I2w ltac:(done)). destruct (q s w) eqn:Hq; injection Hs as <- <-.
      * destruct unit eqn:Hun; bw w s Hp; rewrite ?Hq, ?Hun; simpl; try (by right); try done.
      * bw w s Hp; rewrite ?Hq, ?app_nil_r; simpl; try done. by destruct unit.
    + (* BDrainRun *) specialize (I2w ltac:(done)). injection Hs as <- <-. bw w s Hp; [|by destruct unit]. by rewrite decide_True, app_nil_r.
    + (* XStop *) specialize (I2w ltac:(done)). rewrite I2w in Hs. injection Hs as <- <-.
      destruct unit eqn:Hun; [by destruct (I6 w) as [? _]|]. bw w s Hp; rewrite ?Hun; simpl; try done; auto.
    + (* XArrive *) specialize (I2w ltac:(done)). injection Hs as <- <-.
      destruct unit eqn:Hun; [by destruct (I6 w) as [_ [? _]]|]. bw w s Hp; rewrite ?Hun; simpl; try done; auto; lia.
    + (* XLatch *) specialize (I2w ltac:(done)). case_decide; [|done]. injection Hs as <- <-.
      destruct unit eqn:Hun; [by destruct (I6 w) as [_ [_ ?]]|]. bw w s Hp; rewrite ?Hun; simpl; try done; auto.
    + done.
  - case_decide as Hw; [|done]. injection Hs as <- <-. split; simpl; try done.
    + intros u. rewrite pushes_app, ran_app, I1, app_nil_r, <- !app_assoc. do 2 f_equal. simpl. unfold fset. repeat case_decide; subst; rewrite ?app_nil_r; done.
    + rewrite I3, elem_of_cons. split; [by right|intros [?|?]; done].
    + intros u Hl. rewrite ran_app, app_nil_r. etrans; [|by apply I4].
      assert (stop s = true) as Hst by (apply (I2 u); by destruct (pc s u)). apply I3 in Hst.
      rewrite upto_stop_app, decide_True by (by apply elem_rev). done.
  - injection Hs as <- <-. by apply binv_stop.
  - case_decide; [|done]. destruct (forallb _ _) eqn:Hfa; [|done]. injection Hs as <- <-. split; simpl; try done.
    intros _ w Hw. rewrite forallb_forall in Hfa. specialize (Hfa w ltac:(apply in_seq; lia)). by destruct (pc s w).
Qed.

Theorem reach_binv s h : reach s h -> binv s h.
Proof. induction 1; [apply binv_init|by eapply step_binv]. Qed.
End Busy.
