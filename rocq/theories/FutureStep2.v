From stdpp Require Import prelude gmap list.
From Verif Require Import EventuallyModel FutureModel FutureSpec FutureProofs FutureStep.
Local Notation cell_step := EventuallyModel.step.
Local Notation step := FutureModel.step.

Local Ltac flags := intros; cbn [rev app has_got has_acq has_sig];
  rewrite ?decide_False by congruence; split_and!; try done; intros ???; rewrite ?elem_of_cons; naive_solver.

Definition tame (i : nat) (l h : list ev) : Prop :=
  forall j, j <> i -> has_got j (rev l ++ h) = has_got j h /\ has_acq j (rev l ++ h) = has_acq j h /\
                      has_sig j (rev l ++ h) = has_sig j h /\
                      (forall y k e', EvScheduled y j k e' ∈ rev l ++ h -> EvScheduled y j k e' ∈ h).

(** The thread in the middle of an operation on [x] changes the state of the task. *)
Lemma touch s h t x i sh sh' e p l p0 :
  inv s h -> uses (pc s t) = Some x -> f_var s !! x = Some (Some i) -> f_heap s !! i = Some sh -> f_task s !! i = Some (e, p) ->
  tame i l h -> (forall y, refers y (rev l ++ h) = refers y h) ->
  fits (s_kind sh') e = true -> s_refs sh' = s_refs sh -> sem_ok sh' p ->
  has_got i (rev l ++ h) = bool_decide (s_status sh' = Retrieved) ->
  has_acq i (rev l ++ h) = bool_decide (s_status sh' <> NoWait) ->
  s_cell sh' = cell_at (s_kind sh') e p (s_status sh') ->
  has_sig i (rev l ++ h) = has_sig i h ->
  p0 = CIdle \/ (p0 = CRead x /\ s_status sh' <> NoWait) ->
  good (rev l ++ h) ->
  inv (set_pc t p0 (set_heap (<[i := sh']> (f_heap s)) s)) (rev l ++ h).
Proof.
  intros Hi Hu Hx Hh Ht Htm Href Hf Hr Hsem Hgt Hac Hc Hsg Hp0 Hg.
  destruct (obj_owned_inv s h i e p sh Hi Ht (ex_intro _ x Hx) Hh) as (_ & Hr' & _).
  assert (Hother : forall t', t' <> t -> uses (pc s t') <> Some x).
  { intros t' Hn Hu'. destruct Hn. by apply (i_thr s h Hi t' t x). }
  apply (inv_step s h _ _ i t p0); try done.
  - intros j Hj. cbn. by rewrite lookup_insert_ne.
  - intros y. rewrite Href. by apply (i_refers s h Hi).
  - apply (i_uniq s h Hi).
  - cbn [f_task set_heap set_pc f_heap]. rewrite Ht. split_and!.
    + eapply obj_owned; [by exists x|by rewrite lookup_insert|done|congruence|done..].
    + rewrite Hsg. by apply (i_sig s h Hi i e p).
    + destruct (i_ends s h Hi i e p Ht) as (y & k & Hy). exists y, k. apply elem_of_app. by right.
  - intros t'. by rewrite pc_set.
  - intros t' y j sh0 Hn Hu' Hy Hj. split; [done|]. exists sh0. cbn. assert (j <> i).
    { intros ->. apply (Hother t' Hn). rewrite Hu'. f_equal. by apply (i_uniq s h Hi y x i). }
    by rewrite lookup_insert_ne.
  - destruct Hp0 as [->|[-> Hp0]]; [done|]. exists i, sh'. cbn. by rewrite lookup_insert.
  - intros y t' Hy Hn. destruct Hp0 as [->|[-> Hp0]]; [done|]. injection Hy as <-. by apply Hother.
Qed.

Lemma cell_get k e p st c : fits k e = true -> p <> TRun -> st <> Retrieved -> c = cell_at k e p st ->
  has_exception (var_of k) c = Some (match e with EndExc _ | EndCtorExc _ => true | _ => false end) /\
  match e with
  | EndVal v => exists l, cell_step (var_of k) c OMoveOut = (taken k e, RVal (Some v), l)
  | EndVoid => k = KVoid
  | EndExc x | EndCtorExc x => exists l, cell_step (var_of k) c OMoveExc = (taken k e, RExc (Some x), l)
  end.
Proof.
  intros Hf Hp Hst ->. destruct p; try done; destruct k, e; try done; destruct st; try done; (split; [done|]); try done; by eexists.
Qed.

Lemma cont_ok s h t r : inv s h -> step s (ACont t) = Some r -> exists s' l, r = Next s' l /\ inv s' (rev l ++ h).
Proof.
  intros Hi Hs. cbn [step] in Hs. destruct (pc s t) as [|x k|x] eqn:Hpc; [done| |].
  - destruct (i_acq s h Hi t x k Hpc) as (i & sh & Hx & Hh & Hst). rewrite Hx, Hh in Hs.
    destruct (owned_heap s h x i Hi Hx) as (sh0 & e & p & Hh' & Ht). rewrite Hh in Hh'. injection Hh' as <-.
    assert (Hu : uses (pc s t) = Some x) by (by rewrite Hpc).
    destruct (obj_owned_inv s h i e p sh Hi Ht (ex_intro _ x Hx) Hh) as (Hf & Hr & Hsem & Hgt & Hac & Hc).
    destruct (s_sem sh) as [|n] eqn:Hn; [done|].
    assert (Hsig : has_sig i h = true) by (eapply sem_sig; [exact Hi|exact Hx|exact Hh|congruence]).
    assert (Hsp : signalled p = true) by (rewrite <- (i_sig s h Hi i e p Ht); done).
    assert (n = 0).
    { unfold sem_ok in Hsem. rewrite Hsp, Hn in Hsem. rewrite decide_True in Hsem by done. lia. }
    subst n. rewrite Hst in Hgt, Hac. assert (Hna : has_acq i h = false) by (rewrite Hac; done).
    assert (Hin : EvSignalled i ∈ h) by (by apply has_sig_iff).
    assert (Hnin : EvAcquired i ∉ h) by (intros H; apply has_acq_iff in H; congruence).
    assert (Hc1 : s_cell sh = cell_at (s_kind sh) e p Ready) by (rewrite Hc, Hst; by destruct p).
    destruct k; injection Hs as <-.
    + eexists _, _. split; [done|].
      eapply touch; try done; cbn [s_kind s_refs s_status s_cell s_sem].
      * unfold tame. flags.
      * unfold sem_ok. rewrite Hsp. done.
      * cbn. rewrite decide_True by done. done.
      * by left.
      * cbn. split; [|split; [done|apply (i_good s h Hi)]]. rewrite (refers_var s h x Hi), Hx. split; [done|].
        apply elem_of_cons. by right.
    + eexists _, _. split; [done|].
      eapply touch; try done; cbn [s_kind s_refs s_status s_cell s_sem].
      * unfold tame. flags.
      * unfold sem_ok. rewrite Hsp. done.
      * cbn. rewrite decide_True by done. done.
      * by right.
      * cbn. split; [done|apply (i_good s h Hi)].
    + set (s1 := set_pc _ _ _).
      assert (Hlk : forall z j, f_var s1 !! z = Some (Some j) -> z <> x /\ f_var s !! z = Some (Some j)).
      { intros z j Hz. cbn in Hz. destruct (decide (z = x)) as [->|]; [rewrite lookup_delete in Hz; congruence|].
        by rewrite lookup_delete_ne in Hz. }
      apply (lose_ref s h x i e p sh s1 [EvAcquired i; EvDestroyed x (Some i)] t); try done.
      * exists (s_status sh), 0. split_and!; try done. congruence.
      * intros z Hz. apply Hlk in Hz as [Hn' Hz]. destruct Hn'. by apply (i_uniq s h Hi z x i).
      * intros j Hj. split; intros [z Hz].
        -- apply Hlk in Hz as [_ Hz]. by exists z.
        -- assert (z <> x) by congruence. exists z. cbn. by rewrite lookup_delete_ne.
      * intros z1 z2 j H1 H2. apply Hlk in H1 as [_ H1], H2 as [_ H2]. by apply (i_uniq s h Hi z1 z2 j).
      * intros z. cbn. destruct (decide (z = x)) as [->|]; [by rewrite lookup_delete|].
        rewrite lookup_delete_ne by done. by apply refers_var.
      * flags.
      * cbn. split; [|split; [done|apply (i_good s h Hi)]]. rewrite (refers_var s h x Hi), Hx. split; [done|].
        apply elem_of_cons. by right.
      * intros t'. unfold s1. rewrite pc_set. done.
      * intros t' z j Hn' Hu' Hz. assert (z <> x).
        { intros ->. apply Hn'. by apply (i_thr s h Hi t' t x). }
        split; [cbn; by rewrite lookup_delete_ne|]. intros ->. apply H. by apply (i_uniq s h Hi z x i).
  - destruct (i_read s h Hi t x Hpc) as (i & sh & Hx & Hh & Hst). rewrite Hx, Hh in Hs.
    destruct (owned_heap s h x i Hi Hx) as (sh0 & e & p & Hh' & Ht). rewrite Hh in Hh'. injection Hh' as <-.
    assert (Hu : uses (pc s t) = Some x) by (by rewrite Hpc).
    destruct (obj_owned_inv s h i e p sh Hi Ht (ex_intro _ x Hx) Hh) as (Hf & Hr & Hsem & Hgt & Hac & Hc).
    assert (Hsig : has_sig i h = true) by (eapply status_sig; done).
    assert (Hsp : signalled p = true) by (rewrite <- (i_sig s h Hi i e p Ht); done).
    assert (Hin : EvSignalled i ∈ h) by (by apply has_sig_iff).
    assert (Hrx : refers x h = Some i) by (by rewrite (refers_var s h x Hi), Hx).
    injection Hs as <-. unfold get_rest. rewrite Ht.
    destruct (decide (s_status sh = Retrieved)) as [Hre|Hre].
    + eexists _, _. split; [done|].
      replace s with (set_heap (<[i := sh]> (f_heap s)) s) at 1 by (unfold set_heap; rewrite insert_id by done; by destruct s).
      eapply (touch s h t x i sh sh e p); try done.
      * unfold tame. flags.
      * by left.
      * cbn. split; [|apply (i_good s h Hi)]. split_and!; [done|done|]. apply has_got_iff. rewrite Hgt, Hre. done.
    + rewrite Hsp. cbn [negb].
      assert (Hng : ~ already_got i h).
      { intros H. apply has_got_iff in H. rewrite Hgt in H. by apply bool_decide_eq_true in H. }
      assert (Hfin : forall c g, g = delivered e -> c = taken (s_kind sh) e ->
         inv (set_pc t CIdle (set_heap (<[i := Shared (s_kind sh) c (s_sem sh) Retrieved (s_refs sh)]> (f_heap s)) s)) (rev [EvGot x i g] ++ h)).
      { intros c g -> ->. eapply touch; try done; cbn [s_kind s_refs s_status s_cell s_sem].
        - unfold tame. flags.
        - unfold sem_ok in *. rewrite Hsp in *. rewrite decide_False in Hsem by done. done.
        - cbn. rewrite decide_True by done. done.
        - cbn. rewrite Hac. rewrite bool_decide_eq_true_2 by done. done.
        - by destruct p.
        - by left.
        - cbn. split; [|apply (i_good s h Hi)]. split_and!; [done|done|done|]. exists e. split; [by apply (i_ends s h Hi i e p)|done]. }
      destruct (cell_get (s_kind sh) e p (s_status sh) (s_cell sh) Hf) as [H1 H2]; [by destruct p|done|done|].
      rewrite H1. destruct e as [v| |ex|ex].
      * rewrite decide_False by (intros Hk; by rewrite Hk in Hf). destruct H2 as [l0 ->]. eexists _, _. split; [done|]. by apply Hfin.
      * rewrite decide_True by done. eexists _, _. split; [done|]. apply Hfin; [done|]. rewrite Hc. unfold cell_at. by destruct p, (s_status sh).
      * destruct H2 as [l0 ->]. eexists _, _. split; [done|]. by apply Hfin.
      * destruct H2 as [l0 ->]. eexists _, _. split; [done|]. by apply Hfin.
Qed.

(** The task's own steps leave the futures and the threads alone. *)
Lemma task_touch s h i e p sh sh' p' l :
  inv s h -> f_heap s !! i = Some sh -> f_task s !! i = Some (e, p) ->
  tame i l h -> (forall y, refers y (rev l ++ h) = refers y h) ->
  fits (s_kind sh') e = true -> s_status sh' = s_status sh ->
  (owned s i -> s_refs sh' = S (tb p') /\ sem_ok sh' p') ->
  (~ owned s i -> s_refs sh' = 1 /\ p' <> TDone /\ (signalled p' = false -> s_sem sh' = 0 /\ s_status sh' = NoWait)) ->
  has_got i (rev l ++ h) = has_got i h -> has_acq i (rev l ++ h) = has_acq i h ->
  s_cell sh' = cell_at (s_kind sh') e p' (s_status sh') ->
  has_sig i (rev l ++ h) = signalled p' ->
  good (rev l ++ h) ->
  inv (set_task i (e, p') (set_heap (<[i := sh']> (f_heap s)) s)) (rev l ++ h).
Proof.
  intros Hi Hh Ht Htm Href Hf Hst Ho Hno Hgt Hac Hc Hsg Hg.
  apply (inv_frame s h _ _ i); try done.
  - intros j Hj. cbn. by rewrite lookup_insert_ne.
  - intros j Hj. cbn. by rewrite lookup_insert_ne.
  - intros y. rewrite Href. by apply (i_refers s h Hi).
  - apply (i_uniq s h Hi).
  - cbn [f_task set_heap set_task f_heap]. rewrite lookup_insert. split_and!.
    + rewrite Hgt, Hac. destruct (i_obj s h Hi i e p Ht) as [sh0 H1 H2 H3 H4 H5 H6 H7 H8|sh0 H1 H2 H3 H4 H5 H6 H7|H1 H2].
      * rewrite Hh in H2. injection H2 as <-. destruct (Ho H1). eapply obj_owned; [done|by rewrite lookup_insert|done..| | |done]; by rewrite Hst.
      * destruct (Hno H1) as (?&?&?). eapply obj_orphan; [done|by rewrite lookup_insert|done..].
      * congruence.
    + done.
    + destruct (i_ends s h Hi i e p Ht) as (y & k & Hy). exists y, k. apply elem_of_app. by right.
  - intros t x k Hpc. destruct (i_acq s h Hi t x k Hpc) as (j & sh0 & H1 & H2 & H3). cbn. exists j.
    destruct (decide (j = i)) as [->|]; [exists sh'; rewrite lookup_insert; split_and!; [done|done|congruence]|].
    exists sh0. by rewrite lookup_insert_ne.
  - intros t x Hpc. destruct (i_read s h Hi t x Hpc) as (j & sh0 & H1 & H2 & H3). cbn. exists j.
    destruct (decide (j = i)) as [->|]; [exists sh'; rewrite lookup_insert; split_and!; [done|done|congruence]|].
    exists sh0. by rewrite lookup_insert_ne.
  - apply (i_thr s h Hi).
Qed.

Lemma store_ok k e : fits k e = true ->
  fold_left (fun '(c, ok) o => let '(c', r, _) := cell_step (var_of k) c o in
                               (c', ok && match r with RUB => false | _ => true end))
            (store_ops e) (construct (var_of k), true) = (stored k e, true).
Proof. destruct k, e; try done. Qed.

Lemma owned_dec s i : owned s i \/ ~ owned s i.
Proof.
  destruct (existsb (fun q => bool_decide (snd q = Some i)) (map_to_list (f_var s))) eqn:E.
  - left. apply existsb_exists in E as ([x o] & Hin & Hb). exists x. apply elem_of_list_In, elem_of_map_to_list in Hin.
    by apply bool_decide_eq_true in Hb; cbn in Hb; subst.
  - right. intros [x Hx]. apply not_true_iff_false in E. apply E. apply existsb_exists. exists (x, Some i).
    split; [by apply elem_of_list_In, elem_of_map_to_list|by apply bool_decide_eq_true].
Qed.

Lemma task_ok s h i r : inv s h -> step s (ATask i) = Some r -> exists s' l, r = Next s' l /\ inv s' (rev l ++ h).
Proof.
  intros Hi Hs. cbn [step] in Hs. destruct (f_task s !! i) as [[e p]|] eqn:Ht; [|done].
  pose proof (i_sig s h Hi i e p Ht) as Hsg.
  assert (Hobj := i_obj s h Hi i e p Ht). 
  assert (Hh : p <> TDone -> exists sh, f_heap s !! i = Some sh /\ fits (s_kind sh) e = true /\
     s_cell sh = cell_at (s_kind sh) e p (s_status sh) /\ (signalled p = false -> s_sem sh = 0 /\ s_status sh = NoWait) /\
     (owned s i -> s_refs sh = S (tb p) /\ sem_ok sh p) /\ (~ owned s i -> s_refs sh = 1)).
  { intros Hp. destruct Hobj as [sh0 H1 H2 H3 H4 H5 H6 H7 H8|sh0 H1 H2 H3 H4 H5 H6 H7|H1 H2]; [| |done]; exists sh0; split_and!; try done.
    unfold sem_ok in H5. intros Hp'. by rewrite Hp' in H5. }
  destruct p; [| | |done].
  - destruct (Hh ltac:(done)) as (sh & Hl & Hf & Hc & Hq & Ho & Hno). rewrite Hl in Hs.
    destruct (Hq eq_refl) as [Hz Hw]. cbn [cell_at] in Hc. rewrite Hc in Hs. rewrite store_ok in Hs by done. injection Hs as <-.
    eexists _, _; split; [done|]. eapply task_touch; try done; cbn [s_kind s_refs s_status s_cell s_sem].
    + intros Hown. by split_and!; [by apply Hno|done|].
    + cbn. by rewrite Hw.
    + apply (i_good s h Hi).
  - destruct (Hh ltac:(done)) as (sh & Hl & Hf & Hc & Hq & Ho & Hno). rewrite Hl in Hs.
    destruct (Hq eq_refl) as [Hz Hw]. rewrite Hz in Hs. injection Hs as <-.
    eexists _, _; split; [done|]. eapply task_touch; try done; cbn [s_kind s_refs s_status s_cell s_sem].
    + unfold tame. flags.
    + intros Hown. destruct (Ho Hown) as [H1 H2]. split; [done|]. unfold sem_ok. cbn. by rewrite Hw.
    + intros Hown. by split_and!; [by apply Hno|done|].
    + cbn. by rewrite decide_True.
    + cbn. split; [|apply (i_good s h Hi)]. intros H. apply has_sig_iff in H. rewrite Hsg in H. done.
  - destruct (Hh ltac:(done)) as (sh & Hl & Hf & Hc & Hq & Ho & Hno). injection Hs as <-. cbn [bind_].
    unfold drop_ref. cbn [f_heap set_task]. rewrite Hl. destruct (owned_dec s i) as [Hown|Hown].
    + destruct (Ho Hown) as [Hr Hsem]. rewrite Hr. cbn [tb]. eexists _, _. split; [done|].
      apply (task_touch s h i e TSignalled sh _ TDone []); try done.
      * apply (i_good s h Hi).
    + rewrite (Hno Hown). rewrite Hc. destruct (cell_at_destroy (s_kind sh) e TSignalled (s_status sh) Hf) as [y ->].
      eexists _, _. split; [done|]. cbn [app].
      apply (inv_frame s h _ _ i); try done.
      * intros j Hj. cbn. by rewrite lookup_delete_ne.
      * intros j Hj. cbn. by rewrite lookup_insert_ne.
      * flags.
      * intros z. cbn. by apply (i_refers s h Hi).
      * apply (i_uniq s h Hi).
      * cbn [f_task set_heap set_task f_heap]. rewrite lookup_insert. split_and!.
        -- apply obj_gone; [done|by rewrite lookup_delete|done].
        -- done.
        -- destruct (i_ends s h Hi i e TSignalled Ht) as (z & k & Hz). exists z, k. cbn. apply elem_of_cons. by right.
      * intros t x k Hpc. destruct (i_acq s h Hi t x k Hpc) as (j & sh0 & H1 & H2 & H3). exists j, sh0. cbn.
        rewrite lookup_delete_ne; [done|]. intros ->. apply Hown. by exists x.
      * intros t x Hpc. destruct (i_read s h Hi t x Hpc) as (j & sh0 & H1 & H2 & H3). exists j, sh0. cbn.
        rewrite lookup_delete_ne; [done|]. intros ->. apply Hown. by exists x.
      * apply (i_thr s h Hi).
      * cbn. split; [|apply (i_good s h Hi)]. split; [by apply has_sig_iff|]. intros z Hz.
        rewrite (refers_var s h z Hi) in Hz. apply Hown. exists z. destruct (f_var s !! z) as [o|]; [|done]. cbn in Hz. by subst.
Qed.

Lemma step_ok s h a r : inv s h -> step s a = Some r -> exists s' l, r = Next s' l /\ inv s' (rev l ++ h).
Proof.
  intros Hi Hs. destruct a as [t o|t|i].
  - cbn [step] in Hs. destruct (pc s t) eqn:Hpc; try done. by apply (start_ok s h t o r).
  - by apply (cont_ok s h t r).
  - by apply (task_ok s h i r).
Qed.

Lemma reach_inv s h : reach s h -> inv s h.
Proof.
  induction 1 as [|s h a s' l Hr IH Hs]; [apply init_inv|].
  destruct (step_ok s h a _ IH Hs) as (s1 & l1 & E & Hi). injection E as <- <-. done.
Qed.

Lemma good_split h e h1 h2 : good h -> h = h1 ++ e :: h2 -> ok e h2.
Proof.
  intros Hg ->. induction h1 as [|d h1 IH]; cbn in Hg; [by destruct Hg|]. destruct Hg. auto.
Qed.
