From stdpp Require Import prelude gmap list.
From Verif Require Import EventuallyModel FutureModel FutureSpec FutureProofs.
Local Notation cell_step := EventuallyModel.step.
Local Notation step := FutureModel.step.

Local Ltac flags := intros; cbn [rev app has_got has_acq has_sig];
  repeat (case_decide; [exfalso; congruence|]); split_and!; try done; intros ???; rewrite ?elem_of_cons; naive_solver.
Local Ltac ne := by (intros; cbn; rewrite ?lookup_insert_ne, ?lookup_delete_ne by congruence).

Lemma refers_var s h x : inv s h -> refers x h = mjoin (f_var s !! x).
Proof. intros Hi. apply (i_refers s h Hi). Qed.

Lemma pc_self s t (p : cpc) : pc s t = p -> forall t', pc s t' = if decide (t' = t) then p else pc s t'.
Proof. intros H t'. destruct (decide (t' = t)) as [->|]; [done|done]. Qed.

(** A future object that no thread uses loses its reference to [i]: destroyed,
    detached, or overwritten. [s1] is the state with the new variables. *)
Lemma lose_ref s h x i e p sh s1 l0 t0 :
  inv s h -> f_var s !! x = Some (Some i) -> f_heap s !! i = Some sh -> f_task s !! i = Some (e, p) ->
  f_task s1 = f_task s ->
  (exists st n, f_heap s1 = <[i := Shared (s_kind sh) (s_cell sh) n st (s_refs sh)]> (f_heap s) /\ st = s_status sh /\
     (signalled p = false -> n = s_sem sh)) ->
  (forall y, f_var s1 !! y <> Some (Some i)) ->
  (forall j, j <> i -> owned s1 j <-> owned s j) ->
  (forall x y j, f_var s1 !! x = Some (Some j) -> f_var s1 !! y = Some (Some j) -> x = y) ->
  (forall y, refers y (rev l0 ++ h) = mjoin (f_var s1 !! y)) ->
  (forall j, j <> i -> has_got j (rev l0 ++ h) = has_got j h /\ has_acq j (rev l0 ++ h) = has_acq j h /\
                       has_sig j (rev l0 ++ h) = has_sig j h /\
                       (forall y k e', EvScheduled y j k e' ∈ rev l0 ++ h -> EvScheduled y j k e' ∈ h)) ->
  has_sig i (rev l0 ++ h) = has_sig i h ->
  good (rev l0 ++ h) ->
  (forall t, pc s1 t = if decide (t = t0) then CIdle else pc s t) ->
  (forall t y j, t <> t0 -> uses (pc s t) = Some y -> f_var s !! y = Some (Some j) -> f_var s1 !! y = Some (Some j) /\ j <> i) ->
  exists s' l, bind_ (Next s1 l0) (drop_ref i) = Next s' l /\ inv s' (rev l ++ h).
Proof.
  intros Hi Hx Hh Ht Ht1 (st & n & Hh1 & -> & Hn) Hv Hown Hu Href Htr Hsig Hg Hpc Hk.
  destruct (obj_owned_inv s h i e p sh Hi Ht (ex_intro _ x Hx) Hh) as (Hf & Hr & Hsem & Hgt & Hac & Hc).
  pose proof (i_sig s h Hi i e p Ht) as Hsg. pose proof (i_ends s h Hi i e p Ht) as (x0 & k0 & Hends).
  set (sh1 := Shared (s_kind sh) (s_cell sh) n (s_status sh) (s_refs sh)) in *.
  assert (Hl1 : f_heap s1 !! i = Some sh1) by (rewrite Hh1; apply lookup_insert).
  destruct (drop_own s1 i sh1 e p Hl1 Hf Hr Hc) as (hp & l & Hd & Hcase).
  cbn [bind_]. rewrite Hd. exists (set_heap hp s1), (l0 ++ l). split; [done|].
  assert (Hnow : ~ owned (set_heap hp s1) i) by (intros [y Hy]; by destruct (Hv y)).
  assert (Hpj : forall j, j <> i -> hp !! j = f_heap s !! j).
  { intros j Hj. destruct Hcase as [(_ & -> & _)|(_ & -> & _)];
      rewrite ?lookup_delete_ne, ?lookup_insert_ne by done; by rewrite Hh1, lookup_insert_ne. }
  assert (Hl : rev (l0 ++ l) ++ h = rev l ++ (rev l0 ++ h)) by (by rewrite rev_app_distr, app_assoc).
  assert (Hlc : l = [] \/ l = [EvFreed i]) by (destruct Hcase as [(_ & _ & ->)|(_ & _ & ->)]; auto).
  apply (inv_step s h _ _ i t0 CIdle); try done.
  - intros j Hj. cbn. by rewrite Ht1.
  - intros j Hj. rewrite Hl. destruct (Htr j Hj) as (H1 & H2 & H3 & H4).
    destruct Hlc as [-> | ->]; cbn [rev app has_got has_acq has_sig]; split_and!; try done.
    intros y k e'. rewrite elem_of_cons. intros [?|?]; [done|by apply H4].
  - intros y. rewrite Hl. destruct Hlc as [-> | ->]; cbn [rev app refers]; apply Href.
  - cbn [f_task set_heap]. rewrite Ht1, Ht. split_and!.
    + destruct Hcase as [(-> & -> & _)|(Hp & -> & _)].
      * apply obj_gone; [done|cbn; by rewrite lookup_delete|done].
      * eapply obj_orphan; [done|cbn; by rewrite lookup_insert|done|done|done| |done].
        cbn. intros Hs. unfold sem_ok in Hsem. rewrite Hs in Hsem. rewrite (Hn Hs). done.
    + rewrite Hl. destruct Hlc as [-> | ->]; cbn [rev app has_sig]; by rewrite Hsig.
    + exists x0, k0. rewrite Hl, !elem_of_app. auto.
  - intros t y j sh' Hne Hus Hy Hj. destruct (Hk t y j Hne Hus Hy) as [H1 H2]. split; [done|].
    exists sh'. cbn. rewrite Hpj by done. done.
  - rewrite Hl. destruct Hcase as [(-> & -> & ->)|(_ & _ & ->)]; cbn [rev app good]; [|done].
    split; [|done]. cbn. split.
    + apply has_sig_iff. rewrite Hsig, Hsg. done.
    + intros y Hy. rewrite Href in Hy. destruct (f_var s1 !! y) as [o|] eqn:E; [|done]. cbn in Hy. subst. by destruct (Hv y).
Qed.

Lemma start_ok s h t o r :
  inv s h -> pc s t = CIdle -> start s t o = Some r -> exists s' l, r = Next s' l /\ inv s' (rev l ++ h).
Proof.
  intros Hi Hpc Hs. destruct o as [x i k e|y x|y x|x|x|x|x|x]; cbn [start] in Hs.
  - (* schedule *)
    destruct (f_var s !! x) eqn:Hx; [done|]. destruct (f_task s !! i) eqn:Ht; [done|].
    destruct (f_heap s !! i) eqn:Hh; [done|]. destruct (fits k e) eqn:Hf; [|done].
    injection Hs as <-. eexists _, _; split; [done|].
    destruct (i_new s h Hi i Ht) as (Hg & Ha & Hsg & Hsc).
    assert (Hno : forall y, f_var s !! y <> Some (Some i)).
    { intros y Hy. destruct (i_owntask s h Hi y i Hy). congruence. }
    assert (Hox : owned (set_var (<[x:=Some i]> (f_var s)) (set_task i (e, TRun)
                       (set_heap (<[i := Shared k (construct (var_of k)) 0 NoWait 2]> (f_heap s)) s))) i)
      by (exists x; cbn; apply lookup_insert).
    apply (inv_step s h _ _ i t CIdle); try done.
    + ne.
    + ne.
    + intros j Hj. split; intros [y Hy].
      * exists y. cbn in Hy. destruct (decide (y = x)) as [->|Hn]; [rewrite lookup_insert in Hy; congruence|].
        by rewrite lookup_insert_ne in Hy.
      * exists y. cbn. destruct (decide (y = x)) as [->|Hn]; [congruence|]. by rewrite lookup_insert_ne.
    + flags.
    + intros y. cbn. destruct (decide (y = x)) as [->|Hn]; [by rewrite lookup_insert|].
      rewrite lookup_insert_ne by done. by apply refers_var.
    + intros y z j Hy Hz. cbn in Hy, Hz.
      destruct (decide (y = x)) as [->|Hny], (decide (z = x)) as [->|Hnz]; try done.
      * rewrite lookup_insert in Hy. rewrite lookup_insert_ne in Hz by done. simplify_eq. by destruct (Hno z).
      * rewrite lookup_insert in Hz. rewrite lookup_insert_ne in Hy by done. simplify_eq. by destruct (Hno y).
      * rewrite lookup_insert_ne in Hy, Hz by done. by apply (i_uniq s h Hi y z j).
    + cbn [f_task set_var set_task set_heap]. rewrite lookup_insert. split_and!.
      * eapply obj_owned; [done|cbn; by rewrite lookup_insert|done|done|done| | |done]; cbn; done.
      * done.
      * exists x, k. cbn. apply elem_of_list_here.
    + exact (pc_self s t CIdle Hpc).
    + intros t' y j sh Hn Hy Hv Hj. assert (j <> i) by congruence. assert (y <> x) by congruence.
      cbn. rewrite !lookup_insert_ne by done. eauto.
    + cbn. split; [|apply (i_good s h Hi)]. split; [|done]. rewrite (refers_var s h x Hi), Hx. done.
  - (* move construction *)
    destruct (f_var s !! x) as [o|] eqn:Hx; [|done]. destruct (f_var s !! y) eqn:Hy; [done|].
    destruct (in_use s x) eqn:Hus; [done|]. injection Hs as <-. eexists _, _; split; [done|].
    assert (Hxy : x <> y) by congruence.
    apply (inv_quiet s h _ _ t CIdle); try done.
    + intros j. split; intros [z Hz]; cbn in Hz.
      * destruct (decide (z = y)) as [->|Hn]; [rewrite lookup_insert in Hz; exists x; congruence|].
        rewrite lookup_insert_ne in Hz by done. destruct (decide (z = x)) as [->|Hn']; [rewrite lookup_insert in Hz; congruence|].
        rewrite lookup_insert_ne in Hz by done. by exists z.
      * destruct (decide (z = x)) as [->|Hn]; [exists y; cbn; rewrite lookup_insert; congruence|].
        exists z. assert (z <> y) by congruence. cbn. by rewrite !lookup_insert_ne.
    + flags.
    + intros z. cbn. destruct (decide (y = x)); [done|]. destruct (decide (z = y)) as [->|].
      * rewrite lookup_insert, (refers_var s h x Hi), Hx. done.
      * rewrite lookup_insert_ne by done. destruct (decide (z = x)) as [->|].
        -- by rewrite lookup_insert.
        -- rewrite lookup_insert_ne by done. by apply refers_var.
    + assert (Hlk : forall z j, f_var (set_var (<[y:=o]> (<[x:=None]> (f_var s))) s) !! z = Some (Some j) ->
                (z = y /\ o = Some j) \/ (z <> x /\ f_var s !! z = Some (Some j))).
      { intros z j Hz. cbn in Hz. destruct (decide (z = y)) as [->|]; [rewrite lookup_insert in Hz; left; split; congruence|].
        rewrite lookup_insert_ne in Hz by done. destruct (decide (z = x)) as [->|]; [rewrite lookup_insert in Hz; congruence|].
        rewrite lookup_insert_ne in Hz by done. by right. }
      intros z1 z2 j H1 H2. apply Hlk in H1, H2.
      destruct H1 as [[-> Ho1]|[Hn1 H1]], H2 as [[-> Ho2]|[Hn2 H2]]; try done.
      * destruct Hn2. symmetry. apply (i_uniq s h Hi x z2 j); congruence.
      * destruct Hn1. symmetry. apply (i_uniq s h Hi x z1 j); congruence.
      * by apply (i_uniq s h Hi z1 z2 j).
    + exact (pc_self s t CIdle Hpc).
    + intros t' z j Hn Hu Hz. pose proof (in_use_false s x Hus t') as H1.
      cbn. rewrite !lookup_insert_ne; [done|congruence|congruence].
    + cbn. split; [done|apply (i_good s h Hi)].
  - (* move assignment *)
    destruct (f_var s !! x) as [o|] eqn:Hx; [|done]. destruct (f_var s !! y) as [o'|] eqn:Hy; [|done].
    destruct (in_use s x || in_use s y) eqn:Hus; [done|]. apply orb_false_elim in Hus as [Hux Huy].
    destruct (decide (x = y)) as [->|Hxy].
    { injection Hs as <-. eexists _, _; split; [done|]. apply (inv_quiet s h _ _ t CIdle); try done.
      - flags.
      - intros z. cbn. destruct (decide (y = y)); [|done]. by apply refers_var.
      - apply (i_uniq s h Hi).
      - exact (pc_self s t CIdle Hpc).
      - cbn. split; [done|apply (i_good s h Hi)]. }
    injection Hs as <-.
    set (s1 := set_var (<[y:=o]> (<[x:=None]> (f_var s))) s).
    assert (Hlk : forall z j, f_var s1 !! z = Some (Some j) ->
                (z = y /\ o = Some j) \/ (z <> x /\ z <> y /\ f_var s !! z = Some (Some j))).
    { intros z j Hz. cbn in Hz. destruct (decide (z = y)) as [->|]; [rewrite lookup_insert in Hz; left; split; congruence|].
      rewrite lookup_insert_ne in Hz by done. destruct (decide (z = x)) as [->|]; [rewrite lookup_insert in Hz; congruence|].
      rewrite lookup_insert_ne in Hz by done. by right. }
    assert (Hu1 : forall z1 z2 j, f_var s1 !! z1 = Some (Some j) -> f_var s1 !! z2 = Some (Some j) -> z1 = z2).
    { intros z1 z2 j H1 H2. apply Hlk in H1, H2.
      destruct H1 as [[-> Ho1]|(Hn1 & Hn1' & H1)], H2 as [[-> Ho2]|(Hn2 & Hn2' & H2)]; try done.
      * destruct Hn2. symmetry. apply (i_uniq s h Hi x z2 j); congruence.
      * destruct Hn1. symmetry. apply (i_uniq s h Hi x z1 j); congruence.
      * by apply (i_uniq s h Hi z1 z2 j). }
    assert (Href : forall z, refers z (rev [EvMoved y x] ++ h) = mjoin (f_var s1 !! z)).
    { intros z. cbn. destruct (decide (y = x)); [done|]. destruct (decide (z = y)) as [->|].
      * rewrite lookup_insert, (refers_var s h x Hi), Hx. done.
      * rewrite lookup_insert_ne by done. destruct (decide (z = x)) as [->|].
        -- by rewrite lookup_insert.
        -- rewrite lookup_insert_ne by done. by apply refers_var. }
    assert (Hown : forall j, Some j <> o' -> owned s1 j <-> owned s j).
    { intros j Hj. split; intros [z Hz].
      * apply Hlk in Hz as [[-> Ho]|(_ & _ & Hz)]; [exists x; congruence|by exists z].
      * destruct (decide (z = x)) as [->|Hn]; [exists y; cbn; rewrite lookup_insert; congruence|].
        assert (z <> y) by congruence. exists z. cbn. by rewrite !lookup_insert_ne. }
    assert (Hkeep : forall t' z j, uses (pc s t') = Some z -> f_var s !! z = Some (Some j) -> f_var s1 !! z = Some (Some j)).
    { intros t' z j Hu Hz. pose proof (in_use_false s x Hux t'). pose proof (in_use_false s y Huy t').
      cbn. rewrite !lookup_insert_ne; [done|congruence|congruence]. }
    assert (Hg : good (rev [EvMoved y x] ++ h)) by (cbn; split; [done|apply (i_good s h Hi)]).
    destruct o' as [i|].
    + destruct (owned_heap s h y i Hi Hy) as (sh & e & p & Hh & Ht).
      apply (lose_ref s h y i e p sh s1 [EvMoved y x] t); try done.
      * exists (s_status sh), (s_sem sh). split_and!; try done. cbn. rewrite <- (insert_id (f_heap s) i sh Hh) at 1.
        by destruct sh.
      * intros z Hz. apply Hlk in Hz as [[-> Ho]|(Hn & Hn' & Hz)].
        -- destruct Hxy. apply (i_uniq s h Hi x y i); congruence.
        -- destruct Hn'. by apply (i_uniq s h Hi z y i).
      * intros j Hj. apply Hown. congruence.
      * flags.
      * exact (pc_self s t CIdle Hpc).
      * intros t' z j Hn Hu Hz. split; [by apply (Hkeep t')|].
        intros ->. pose proof (in_use_false s y Huy t') as H1. apply H1. rewrite Hu. f_equal. by apply (i_uniq s h Hi z y i).
    + cbn. eexists _, _; split; [done|]. apply (inv_quiet s h _ _ t CIdle); try done.
      * intros j. by apply Hown.
      * flags.
      * exact (pc_self s t CIdle Hpc).
      * intros t' z j Hn. by apply Hkeep.
  - (* valid *)
    destruct (f_var s !! x) as [o|] eqn:Hx; [|done]. destruct (in_use s x) eqn:Hus; [done|].
    injection Hs as <-. eexists _, _; split; [done|]. apply (inv_quiet s h _ _ t CIdle); try done.
    + flags.
    + intros z. cbn. by apply refers_var.
    + apply (i_uniq s h Hi).
    + exact (pc_self s t CIdle Hpc).
    + cbn. split; [|apply (i_good s h Hi)]. by rewrite (refers_var s h x Hi), Hx.
  - (* wait *)
    destruct (f_var s !! x) as [[i|]|] eqn:Hx; [|destruct (in_use s x) eqn:Hus; [done|]|done].
    + destruct (in_use s x) eqn:Hus; [done|]. destruct (owned_heap s h x i Hi Hx) as (sh & e & p & Hh & Ht).
      rewrite Hh in Hs. destruct (decide (s_status sh = NoWait)) as [Hst|Hst]; injection Hs as <-; (eexists _, _; split; [done|]).
      * apply (inv_quiet s h _ _ t (CAcquire x KWait)); try done.
        -- intros z. cbn. by apply refers_var.
        -- apply (i_uniq s h Hi).
        -- apply pc_set.
        -- exists i, sh. done.
        -- intros z t' Hz _. injection Hz as <-. by apply (in_use_false s x Hus).
        -- apply (i_good s h Hi).
      * apply (inv_quiet s h _ _ t CIdle); try done.
        -- flags.
        -- intros z. cbn. by apply refers_var.
        -- apply (i_uniq s h Hi).
        -- exact (pc_self s t CIdle Hpc).
        -- cbn. split; [|apply (i_good s h Hi)]. rewrite (refers_var s h x Hi), Hx. split; [done|].
           apply has_sig_iff. by eapply status_sig.
    + injection Hs as <-. eexists _, _; split; [done|]. apply (inv_quiet s h _ _ t CIdle); try done.
      * flags.
      * intros z. cbn. by apply refers_var.
      * apply (i_uniq s h Hi).
      * exact (pc_self s t CIdle Hpc).
      * cbn. split; [|apply (i_good s h Hi)]. by rewrite (refers_var s h x Hi), Hx.
  - (* get *)
    destruct (f_var s !! x) as [[i|]|] eqn:Hx; [|destruct (in_use s x) eqn:Hus; [done|]|done].
    + destruct (in_use s x) eqn:Hus; [done|]. destruct (owned_heap s h x i Hi Hx) as (sh & e & p & Hh & Ht).
      rewrite Hh in Hs. destruct (decide (s_status sh = NoWait)) as [Hst|Hst]; injection Hs as <-; (eexists _, _; split; [done|]).
      * apply (inv_quiet s h _ _ t (CAcquire x KGet)); try done.
        -- intros z. cbn. by apply refers_var.
        -- apply (i_uniq s h Hi).
        -- apply pc_set.
        -- exists i, sh. done.
        -- intros z t' Hz _. injection Hz as <-. by apply (in_use_false s x Hus).
        -- apply (i_good s h Hi).
      * apply (inv_quiet s h _ _ t (CRead x)); try done.
        -- intros z. cbn. by apply refers_var.
        -- apply (i_uniq s h Hi).
        -- apply pc_set.
        -- exists i, sh. done.
        -- intros z t' Hz _. injection Hz as <-. by apply (in_use_false s x Hus).
        -- apply (i_good s h Hi).
    + injection Hs as <-. eexists _, _; split; [done|]. apply (inv_quiet s h _ _ t CIdle); try done.
      * flags.
      * intros z. cbn. by apply refers_var.
      * apply (i_uniq s h Hi).
      * exact (pc_self s t CIdle Hpc).
      * cbn. split; [|apply (i_good s h Hi)]. by rewrite (refers_var s h x Hi), Hx.
  - (* detach *)
    destruct (f_var s !! x) as [o|] eqn:Hx; [|done]. destruct (in_use s x) eqn:Hus; [done|]. injection Hs as <-.
    set (s1 := set_var (<[x:=None]> (f_var s)) s).
    assert (Hlk : forall z j, f_var s1 !! z = Some (Some j) -> z <> x /\ f_var s !! z = Some (Some j)).
    { intros z j Hz. cbn in Hz. destruct (decide (z = x)) as [->|]; [rewrite lookup_insert in Hz; congruence|].
      by rewrite lookup_insert_ne in Hz. }
    assert (Hu1 : forall z1 z2 j, f_var s1 !! z1 = Some (Some j) -> f_var s1 !! z2 = Some (Some j) -> z1 = z2).
    { intros z1 z2 j H1 H2. apply Hlk in H1 as [_ H1], H2 as [_ H2]. by apply (i_uniq s h Hi z1 z2 j). }
    assert (Href : forall z, refers z (rev [EvDetached x] ++ h) = mjoin (f_var s1 !! z)).
    { intros z. cbn. destruct (decide (z = x)) as [->|]; [by rewrite lookup_insert|].
      rewrite lookup_insert_ne by done. by apply refers_var. }
    assert (Hkeep : forall t' z j, uses (pc s t') = Some z -> f_var s !! z = Some (Some j) -> f_var s1 !! z = Some (Some j)).
    { intros t' z j Hu Hz. pose proof (in_use_false s x Hus t'). cbn. rewrite !lookup_insert_ne; [done|congruence]. }
    assert (Hown : forall j, Some j <> o -> owned s1 j <-> owned s j).
    { intros j Hj. split; intros [z Hz].
      * apply Hlk in Hz as [_ Hz]. by exists z.
      * assert (z <> x) by congruence. exists z. cbn. by rewrite lookup_insert_ne. }
    assert (Hg : good (rev [EvDetached x] ++ h)) by (cbn; split; [done|apply (i_good s h Hi)]).
    destruct o as [i|].
    + destruct (owned_heap s h x i Hi Hx) as (sh & e & p & Hh & Ht).
      apply (lose_ref s h x i e p sh s1 [EvDetached x] t); try done.
      * exists (s_status sh), (s_sem sh). split_and!; try done. cbn. rewrite <- (insert_id (f_heap s) i sh Hh) at 1.
        by destruct sh.
      * intros z Hz. apply Hlk in Hz as [Hn Hz]. destruct Hn. by apply (i_uniq s h Hi z x i).
      * intros j Hj. apply Hown. congruence.
      * flags.
      * exact (pc_self s t CIdle Hpc).
      * intros t' z j Hn Hu Hz. split; [by apply (Hkeep t')|].
        intros ->. pose proof (in_use_false s x Hus t') as H1. apply H1. rewrite Hu. f_equal. by apply (i_uniq s h Hi z x i).
    + cbn. eexists _, _; split; [done|]. apply (inv_quiet s h _ _ t CIdle); try done.
      * intros j. by apply Hown.
      * flags.
      * exact (pc_self s t CIdle Hpc).
      * intros t' z j Hn. by apply Hkeep.
  - (* destroy *)
    destruct (f_var s !! x) as [o|] eqn:Hx; [|done].
    set (s1 := set_var (delete x (f_var s)) s).
    assert (Hlk : forall z j, f_var s1 !! z = Some (Some j) -> z <> x /\ f_var s !! z = Some (Some j)).
    { intros z j Hz. cbn in Hz. destruct (decide (z = x)) as [->|]; [rewrite lookup_delete in Hz; congruence|].
      by rewrite lookup_delete_ne in Hz. }
    assert (Hu1 : forall z1 z2 j, f_var s1 !! z1 = Some (Some j) -> f_var s1 !! z2 = Some (Some j) -> z1 = z2).
    { intros z1 z2 j H1 H2. apply Hlk in H1 as [_ H1], H2 as [_ H2]. by apply (i_uniq s h Hi z1 z2 j). }
    assert (Href : forall z, refers z (rev [EvDestroyed x o] ++ h) = mjoin (f_var s1 !! z)).
    { intros z. cbn. destruct (decide (z = x)) as [->|]; [by rewrite lookup_delete|].
      rewrite lookup_delete_ne by done. by apply refers_var. }
    assert (Hkeep : in_use s x = false ->
              forall t' z j, uses (pc s t') = Some z -> f_var s !! z = Some (Some j) -> f_var s1 !! z = Some (Some j)).
    { intros Hus t' z j Hu Hz. pose proof (in_use_false s x Hus t'). cbn. rewrite !lookup_delete_ne; [done|congruence]. }
    assert (Hown : forall j, Some j <> o -> owned s1 j <-> owned s j).
    { intros j Hj. split; intros [z Hz].
      * apply Hlk in Hz as [_ Hz]. by exists z.
      * assert (z <> x) by congruence. exists z. cbn. by rewrite lookup_delete_ne. }
    destruct o as [i|].
    + destruct (in_use s x) eqn:Hus; [done|].
      destruct (owned_heap s h x i Hi Hx) as (sh & e & p & Hh & Ht). rewrite Hh in Hs.
      destruct (decide (s_status sh = NoWait)) as [Hst|Hst].
      { injection Hs as <-. eexists _, _; split; [done|]. apply (inv_quiet s h _ _ t (CAcquire x KDtor)); try done.
        -- intros z. cbn. by apply refers_var.
        -- apply (i_uniq s h Hi).
        -- apply pc_set.
        -- exists i, sh. done.
        -- intros z t' Hz _. injection Hz as <-. by apply (in_use_false s x Hus).
        -- apply (i_good s h Hi). }
      injection Hs as <-.
      apply (lose_ref s h x i e p sh s1 [EvDestroyed x (Some i)] t); try done.
      * exists (s_status sh), (s_sem sh). split_and!; try done. cbn. rewrite <- (insert_id (f_heap s) i sh Hh) at 1.
        by destruct sh.
      * intros z Hz. apply Hlk in Hz as [Hn Hz]. destruct Hn. by apply (i_uniq s h Hi z x i).
      * intros j Hj. apply Hown. congruence.
      * flags.
      * cbn. split; [|apply (i_good s h Hi)]. rewrite (refers_var s h x Hi), Hx. split; [done|].
        apply has_sig_iff. by eapply status_sig.
      * exact (pc_self s t CIdle Hpc).
      * intros t' z j Hn Hu Hz. split; [by apply (Hkeep eq_refl t')|].
        intros ->. pose proof (in_use_false s x Hus t') as H1. apply H1. rewrite Hu. f_equal. by apply (i_uniq s h Hi z x i).
    + destruct (in_use s x) eqn:Hus; [done|]. injection Hs as <-.
      eexists _, _; split; [done|]. apply (inv_quiet s h _ _ t CIdle); try done.
      * intros j. by apply Hown.
      * flags.
      * exact (pc_self s t CIdle Hpc).
      * intros t' z j Hn. by apply Hkeep.
      * cbn. split; [|apply (i_good s h Hi)]. by rewrite (refers_var s h x Hi), Hx.
Qed.
