(** * The memory bound: executions without rescheduling; for_each and fold. *)

From stdpp Require Import prelude gmap list.
From Coq Require Import NArith ZArith Lia.
From Verif Require Import RuntimeModel RuntimeSpec RuntimeInv RuntimeSafe RuntimeHist RuntimeHist2
  RuntimeHist3 RuntimeHist4 RuntimeThms SpaceSpec SpaceProofs AlgoTaskModel AlgoTaskProofs.
Local Open Scope N_scope.

(** ** Nobody waits if everybody was started and nobody rescheduled itself *)

Lemma body_none_status h f : evs2 h -> body_in f h = None -> status_in f h = None.
Proof.
  induction h as [|e h IH]; [done|]. intros [He Hok] Hb. specialize (IH Hok).
  assert (X : forall w, status_in f h = Some (Running w) -> body_in f h <> None) by (intros w E1 E2; by rewrite IH in E1).
  destruct e; cbn in *; try (case_decide; [done|]); auto.
  all: try (case_decide; [subst|by auto]).
  all: try (destruct He as ((v & Hv) & _); by destruct (X v)).
  all: try (destruct He as (v & Hv); by destruct (X v)).
  rewrite IH in He by done. done.
Qed.

Lemma resumed_status h f w : evs2 h -> EvResume w f ∈ h -> status_in f h <> None.
Proof.
  induction h as [|e h IH]; [by intros _ H%elem_of_nil|]. intros [He Hok] Hin.
  apply elem_of_cons in Hin as [<-|Hin]; [cbn; by rewrite decide_True|]. specialize (IH Hok Hin).
  destruct e; cbn; repeat case_decide; done.
Qed.

Lemma ready_fresh af h f w :
  evs_ok af h -> evs2 h -> status_in f h = Some Ready -> EvResume w f ∈ h -> False.
Proof.
  induction h as [|e h IH]; [by intros _ _ _ H%elem_of_nil|]. intros [He Hok] [He2 Hok2] Hs Hin.
  assert (Hin' : EvResume w f ∈ h).
  { apply elem_of_cons in Hin as [<-|Hin]; [|done]. cbn in Hs. by rewrite decide_True in Hs. }
  clear Hin. specialize (IH Hok Hok2).
  pose proof (resumed_status h f w Hok2 Hin') as Hx.
  assert (Hb : body_in f h <> None) by (intros E; by apply body_none_status in E).
  destruct e; cbn in Hs, He; repeat (case_decide; [subst; try done|]); auto.
  all: destruct He as (_ & He & _); done.
Qed.

Lemma switch_in h f d : status_in f h = Some (AtSwitch d) -> EvSwitch f d ∈ h.
Proof.
  induction h as [|e h IH]; [done|]. intros Hs. destruct e; cbn in Hs; repeat (case_decide; [subst; try done|]);
    try (right; by auto). injection Hs as ->. by left.
Qed.

Lemma ready_root nw af s h f :
  reach nw af s h -> status_in f h = Some Ready -> exists t, EvSpawn f t ∈ h.
Proof.
  intros HR. destruct (reach_inv _ _ _ _ HR) as (G & I). pose proof (reach_stat af nw s h HR) as T.
  destruct (reach_hist af nw s h HR) as (H & _). intros Hs.
  assert (Hx : exists_in h f = true) by (unfold exists_in; by rewrite Hs).
  apply (exists_frame nw af s h f HR) in Hx as (fr & Hf).
  destruct (runs_dec s f) as [(i & Hr)|Hr].
  { rewrite (t_run _ _ T i f Hr) in Hs. done. }
  pose proof (t_sus _ _ T f fr Hf Hr) as Hsus. unfold susp_ok in Hsus.
  assert (Hrp : exists t, f_rp fr = RRun t).
  { destruct (f_rp fr); try done; eauto; try (by rewrite Hs in Hsus);
      destruct Hsus as (c & st' & E & _); by rewrite Hs in E. }
  destruct Hrp as (t & Erp). pose proof (i_node _ _ _ I f fr Hf) as (N1 & _ & _ & _ & N5).
  rewrite Erp in N1, N5. destruct N5 as (_ & Hpd & _).
  assert (Ht : 0 < sumw (wtok f) (s_workers s)) by lia.
  apply sumw_ex in Ht as (i & w & Hi & Hw). pose proof (sumw_ge (wpend f) _ _ _ Hi) as Hp. rewrite Hpd in Hp. clear Hpd.
  destruct (i_wrk _ _ _ I i w Hi) as ((W & _) & _).
  assert (Hin : f ∈ w_inbox w ++ w_batch w).
  { apply occ_in. rewrite occ_app. unfold wtok, wpend in *.
    assert (occ f (pc_tok (w_pc w)) = 0); [|lia].
    pose proof (pcs_lookup s i w Hi) as Hpc.
    destruct (w_pc w) as [|g|g| | | |g| |] eqn:Epc; cbn; try done; unfold eqn; case_decide; try done; subst.
    - unfold eqn in Hp. rewrite decide_True in Hp by done. lia.
    - exfalso. apply (Hr i). exists (PRun f). done.
    - exfalso. apply (Hr i). exists (PJSusp f). done. }
  destruct (W f Hin) as (fr' & Hf' & Hk). assert (fr' = fr) as -> by congruence. rewrite Erp in Hk.
  destruct Hk as (Hk & _). pose proof (k_kind _ _ _ _ (g_frames _ _ _ H f fr Hf)) as Hpar. rewrite Hk in Hpar.
  assert (Hlt : f < s_nextf s).
  { destruct (decide (f < s_nextf s)); [done|]. rewrite (i_fresh _ _ _ I f) in Hf; [done|lia]. }
  destruct (g_old _ _ _ H f Hlt) as (t' & Hb). clear -Hb Hpar. exists t'.
  induction h as [|e h IH]; [done|]. destruct e; cbn in *; try (right; by auto);
    repeat (case_decide; [subst; try done|]); try (right; by auto). injection Hb as ->. by left.
Qed.

Lemma none_waiting nw af s h :
  reach nw af s h ->
  (forall f t, EvSpawn f t ∈ h -> exists w, EvResume w f ∈ h) ->
  (forall f d, EvSwitch f d ∉ h) ->
  waiting_tasks h = [].
Proof.
  intros HR Hst Hsw. pose proof (reach_stat af nw s h HR) as T. destruct (reach_hist af nw s h HR) as (H & _).
  destruct (waiting_tasks h) as [|(f, t) l] eqn:E; [done|]. exfalso.
  assert (Hin : (f, t) ∈ waiting_tasks h) by (rewrite E; by left).
  apply in_keep in Hin as (_ & Hw). cbn in Hw. unfold waits_in in Hw.
  destruct (status_in f h) as [[]|] eqn:Es; try done.
  - destruct (ready_root nw af s h f HR Es) as (t' & Hsp). destruct (Hst f t' Hsp) as (w & Hr).
    eapply ready_fresh; [exact (g_evs _ _ _ H)|exact (t_evs _ _ T)|exact Es|exact Hr].
  - apply switch_in in Es. by eapply Hsw.
Qed.

(** ** The algorithms *)

Lemma fits_use {A} U n (u : ufun A) x k :
  needs U u -> U <= n -> (forall o, fits one n (k o)) -> fits one n (use u x k).
Proof.
  intros Hu Hn Hk. destruct u as [f|f]; cbn; [done|]. unfold just.
  destruct (Hu x) as (n' & H1 & H2). apply (ft_call _ _ n'); [lia|done|].
  intros [[| |]|]; cbn; auto.
Qed.

Lemma fits_try n k o : (forall v, fits one n (k v)) -> fits one n (try_ k o).
Proof. intros H. destruct o; cbn; [done|constructor]. Qed.

Lemma fits_both n n' c1 c2 k :
  1 + n' <= n -> fits one n' c1 -> fits one n' c2 -> (forall cs, fits one n (k cs)) ->
  fits one n (both c1 c2 k).
Proof.
  intros Hn H1 H2 Hk. unfold both. apply (ft_fork _ _ n'); [done|done|].
  assert (Hj : fits one n (both_join k)) by (constructor; intros cs [e|]; [constructor|done]).
  assert (Hc : fits one n (both_call c2 k)).
  { unfold both_call. apply (ft_call _ _ n'); [done|done|]. intros [c|e]; [done|by constructor]. }
  intros [|c|e]; cbn; [done|done|constructor].
Qed.

Lemma halves_pow (len : nat) (k : nat) :
  (len <= 2 ^ S k)%nat -> (len / 2 <= 2 ^ k /\ len - len / 2 <= 2 ^ k)%nat.
Proof.
  intros H. rewrite Nat.pow_succ_r' in H.
  pose proof (Nat.div_mod len 2 ltac:(lia)) as E. pose proof (Nat.mod_upper_bound len 2 ltac:(lia)). lia.
Qed.

Section each.
Context (fn pj : ufun Z) (U : N) (Hf : needs U fn) (Hp : needs U pj).

Lemma fits_each n xs : U <= n -> fits one n (each fn pj xs).
Proof using Hf Hp.
  intros Hn. induction xs as [|x xs IH]; cbn; [constructor|].
  eapply fits_use; [done|done|]. intros o. apply fits_try. intros v.
  eapply fits_use; [done|done|]. intros o'. by apply fits_try.
Qed.

Lemma fits_each_n n k xs : (0 < n)%nat -> (length xs <= 2 ^ k)%nat -> fits one (N.of_nat k + U) (for_each_n fn pj n xs).
Proof using Hf Hp.
  intros Hn. revert xs. induction k as [|k IH]; intros xs Hx; rewrite for_each_n_unfold.
  - case_decide; [constructor|]. rewrite decide_True by (cbn in Hx; lia). apply fits_each. lia.
  - case_decide; [constructor|]. case_decide; [apply fits_each; lia|].
    destruct (halves_pow _ _ Hx) as (H1 & H2).
    apply (fits_both _ (N.of_nat k + U)); [lia| | |intros; constructor]; apply IH.
    + rewrite firstn_length. lia.
    + rewrite skipn_length. lia.
Qed.

Lemma fits_each_1 k xs : (length xs <= 2 ^ k)%nat -> fits one (N.of_nat k + U) (for_each_1 fn pj xs).
Proof using Hf Hp.
  revert xs. induction k as [|k IH]; intros xs Hx; rewrite for_each_1_unfold; destruct xs as [|x [|y xs]].
  1,4: constructor.
  1,3: eapply fits_use; [done|lia|]; intros o; apply fits_try; intros v;
    eapply fits_use; [done|lia|]; intros o'; apply fits_try; intros; constructor.
  - cbn in Hx. lia.
  - destruct (halves_pow _ _ Hx) as (H1 & H2).
    apply (fits_both _ (N.of_nat k + U)); [lia| | |intros; constructor]; apply IH.
    + rewrite firstn_length. lia.
    + rewrite skipn_length. lia.
Qed.

Lemma for_each_space n k xs :
  (0 < n)%nat -> (length xs <= 2 ^ k)%nat -> serial_space one (N.of_nat k + 2 + U) (for_each fn pj n xs).
Proof using Hf Hp.
  intros Hn Hx. exists (N.of_nat k + 1 + U). split; [unfold one; lia|]. unfold for_each, just.
  case_decide; (apply (ft_call _ _ (N.of_nat k + U)); [unfold one; lia| |]).
  2,4: intros [[| |]|]; cbn; constructor.
  - by apply fits_each_1.
  - by apply fits_each_n.
Qed.
End each.

Section fold.
Context (bop : ufun (Z * Z)) (pj : ufun Z) (ub : exn) (opt : option Z -> Z) (U : N).
Context (Hb : needs U bop) (Hp : needs U pj).

Lemma fits_loop n lhs xs : U <= n -> fits one n (fold_loop bop pj lhs xs).
Proof using Hb Hp.
  intros Hn. revert lhs. induction xs as [|x xs IH]; intros lhs; cbn; [constructor|].
  eapply fits_use; [done|done|]. intros o. apply fits_try. intros v.
  destruct bop as [f|g]; [by apply fits_try|].
  destruct (Hb (lhs, v)) as (n' & H1 & H2). apply (ft_call _ _ n'); [lia|done|].
  intros [[| |]|]; auto; constructor.
Qed.

Lemma fits_combine n cs : U <= n -> fits one n (combine bop ub cs).
Proof using Hb.
  intros Hn. unfold combine. repeat case_match; try constructor.
  eapply fits_use; [done|done|]. intros o. apply fits_try. intros. constructor.
Qed.

Lemma fits_fold_n n k xs : (0 < n)%nat -> (length xs <= 2 ^ k)%nat -> fits one (N.of_nat k + U) (fold_n bop pj ub n xs).
Proof using Hb Hp.
  intros Hn. revert xs. induction k as [|k IH]; intros xs Hx; rewrite fold_n_unfold.
  - rewrite decide_True by (cbn in Hx; lia). destruct xs; [constructor|].
    eapply fits_use; [done|lia|]. intros o. apply fits_try. intros v. apply fits_loop. lia.
  - case_decide.
    + destruct xs; [constructor|].
      eapply fits_use; [done|lia|]. intros o. apply fits_try. intros v. apply fits_loop. lia.
    + destruct (halves_pow _ _ Hx) as (H1 & H2).
      apply (fits_both _ (N.of_nat k + U)); [lia| | |intros; apply fits_combine; lia]; apply IH.
      * rewrite firstn_length. lia.
      * rewrite skipn_length. lia.
Qed.

Lemma fits_fold_1 k xs : (length xs <= 2 ^ k)%nat -> fits one (N.of_nat k + U) (fold_1 bop pj ub xs).
Proof using Hb Hp.
  revert xs. induction k as [|k IH]; intros xs Hx; rewrite fold_1_unfold; destruct xs as [|x [|y xs]].
  1,4: constructor.
  1,3: eapply fits_use; [done|lia|]; intros o; apply fits_try; intros; constructor.
  - cbn in Hx. lia.
  - destruct (halves_pow _ _ Hx) as (H1 & H2).
    apply (fits_both _ (N.of_nat k + U)); [lia| | |intros; apply fits_combine; lia]; apply IH.
    + rewrite firstn_length. lia.
    + rewrite skipn_length. lia.
Qed.

Lemma fold_space n k xs :
  (0 < n)%nat -> (length xs <= 2 ^ k)%nat -> serial_space one (N.of_nat k + 2 + U) (fold bop pj ub opt n xs).
Proof using Hb Hp.
  intros Hn Hx. exists (N.of_nat k + 1 + U). split; [unfold one; lia|]. unfold fold, just.
  destruct xs as [|x xs]; [constructor|].
  case_decide; (apply (ft_call _ _ (N.of_nat k + U)); [unfold one; lia| |]).
  2,4: intros [[| |]|]; cbn; constructor.
  - by apply fits_fold_1.
  - by apply fits_fold_n.
Qed.
End fold.
