(** * Every reachable state of the runtime machine satisfies the invariant, and
    no transition has undefined behaviour. *)

From stdpp Require Import prelude gmap list.
From Coq Require Import NArith Lia.
From Verif Require Import RuntimeModel RuntimeSpec RuntimeInv RuntimeStep RuntimeStep2 RuntimeStep3
  RuntimeStep4 RuntimeStep5 RuntimeStep6 RuntimeStep7.
Local Open Scope N_scope.

Lemma last_app_split {A} (l : list A) a : last l = Some a -> l = removelast l ++ [a].
Proof.
  induction l as [|b l IH]; [done|]. destruct l as [|c l].
  - cbn. by intros [= <-].
  - intros H. change (b :: c :: l = b :: (removelast (c :: l) ++ [a])). f_equal. by apply IH.
Qed.

Lemma good_steal nw G s i v : inv nw G s -> good nw (steal i v s).
Proof.
  intros I. unfold steal. destruct (s_workers s !! i) as [w|] eqn:Hi; [|done].
  destruct (s_workers s !! v) as [wv|] eqn:Hv; [|done].
  destruct (decide (i = v)) as [|Hne]; [done|].
  destruct (w_pc w) eqn:Hpc; try done. destruct (w_batch w) eqn:Hb; try done.
  destruct (last (w_deque wv)) as [f|] eqn:Hl; [|done].
  pose proof (last_app_split _ _ Hl) as Hd.
  destruct (i_wrk _ _ _ I i w Hi) as ((W0 & W) & Wlt). rewrite Hpc in W. destruct W as (Wd & Ws).
  destruct (i_wrk _ _ _ I v wv Hv) as ((V0 & V) & Vlt).
  assert (Ht : 1 <= wtok f wv).
  { unfold wtok. rewrite Hd, occ_app. cbn. rewrite eqn_refl. lia. }
  destruct (tok_live _ _ _ f _ _ I Hv ltac:(lia)) as (fr & Hf).
  assert (HL : forall a, links (s_frames s) G a (w_deque wv) -> links (s_frames s) G a (removelast (w_deque wv))).
  { intros a. rewrite Hd at 1. apply links_prefix. }
  assert (Hnil : w_deque wv <> []) by (intros E; rewrite E in Hl; done).
  exists G. cbn. eapply (inv_2 nw G s _ v i wv (set_deque (removelast (w_deque wv)) wv) w (set_pc (PStolen f) w) f fr fr); try done.
  - cbn. symmetry. by apply insert_id.
  - intros q. pose proof (occ_removelast q _ _ Hl) as X. unfold wtok, wpend, wsub. cbn. rewrite Hpc. cbn.
    split_and!; try lia.
  - by left.
  - cbn. split; [done|]. cbn.
    destruct (w_pc wv); try (by destruct V).
    + destruct V as (fr0 & V1 & V2 & V3 & V4 & V5). exists fr0. split_and!; auto.
    + destruct V as ((j & V1) & V2). split; [exists j; auto|done].
    + destruct V as (fr0 & k & V1 & V2 & V3 & V4 & V5). exists fr0, k. split_and!; auto.
    + destruct V as ((a & V1) & V2). split; [exists a; auto|done].
    + destruct V as ((a & V1) & V2). split; [exists a; auto|done].
  - by unfold eff; rewrite Hpc.
Qed.

Lemma good_spawn nw G s d t : inv nw G s -> well_scoped nw t -> good nw (spawn d t s).
Proof.
  intros I Hs. unfold spawn. destruct (s_workers s !! d) as [w|] eqn:Hd; [|done].
  set (f := s_nextf s). set (x := s_nexts s). set (w' := set_inbox (w_inbox w ++ [f]) w).
  assert (Hf : s_frames s !! f = None) by (apply I; unfold f; lia).
  assert (Hlt : (d < length (s_workers s))%nat) by (by apply lookup_lt_Some in Hd).
  assert (Hshf : shape_of (s_frames s) !! f = None) by (by apply shape_none).
  destruct (i_dead _ _ _ I f Hf) as (D1 & D2 & D3 & D4).
  set (G' := fun q => if decide (q = f) then None else G q).
  exists G'. set (s' := put_worker _ _ _).
  assert (EF : s_frames s' = <[f := new_frame KRoot t x]> (s_frames s)) by done.
  assert (Ews : s_workers s' = <[d := w']> (s_workers s)) by done.
  assert (Esh : shape_of (s_frames s') = <[f := (KRoot, x)]> (shape_of (s_frames s))) by (rewrite EF; apply shape_new).
  assert (HS1 : stk s' x = [f]) by (unfold stk; cbn; by rewrite lookup_insert).
  assert (HS2 : forall y, y <> x -> stk s' y = stk s y) by (intros y Hy; unfold stk; cbn; by rewrite lookup_insert_ne).
  assert (Hxe : stk s x = []) by (apply (so_fresh _ _ _ (i_stk _ _ _ I)); unfold x; lia).
  assert (Enf : s_nextf s' = f + 1) by done. assert (Ens : s_nexts s' = x + 1) by done.
  clearbody s'.
  assert (Hnf : forall q, nforks q (shape_of (s_frames s')) = nforks q (shape_of (s_frames s))).
  { intros q. unfold nforks. rewrite Esh, cntm_new by done. done. }
  assert (Hnc : forall q, ncalls q (shape_of (s_frames s')) = ncalls q (shape_of (s_frames s))).
  { intros q. unfold ncalls. rewrite Esh, cntm_new by done. done. }
  assert (Hcp : forall q, ncapt q (s_frames s') = ncapt q (s_frames s)).
  { intros q. unfold ncapt. rewrite EF, cntm_new by done. done. }
  assert (Hsb : forall q, sumw (wsub q) (s_workers s') = sumw (wsub q) (s_workers s)).
  { intros q. rewrite Ews. pose proof (sumw_insert (wsub q) _ _ _ w' Hd) as X.
    change (wsub q w') with (wsub q w) in X. lia. }
  assert (Hpd : forall q, sumw (wpend q) (s_workers s') = sumw (wpend q) (s_workers s)).
  { intros q. rewrite Ews. pose proof (sumw_insert (wpend q) _ _ _ w' Hd) as X.
    change (wpend q w') with (wpend q w) in X. lia. }
  assert (Htk : forall q, sumw (wtok q) (s_workers s') = sumw (wtok q) (s_workers s) + eqn f q).
  { intros q. rewrite Ews. pose proof (sumw_insert (wtok q) _ _ _ w' Hd) as X.
    assert (wtok q w' = wtok q w + eqn f q) as E.
    { unfold wtok. cbn. rewrite occ_app. cbn. lia. }
    lia. }
  assert (Hp0 : sumw (wpend f) (s_workers s) = 0).
  { destruct (decide (0 < sumw (wpend f) (s_workers s))) as [H|]; [|lia].
    apply sumw_ex in H as (j & wj & Hj & Hwj). pose proof (wpend_le_wtok f wj).
    pose proof (sumw_ge (wtok f) _ _ _ Hj). lia. }
  constructor.
  - rewrite Ews, insert_length. apply I.
  - intros q fr Hq. rewrite Hnf, Hnc, Hcp, Hsb, Hpd, Htk. rewrite EF in Hq.
    destruct (decide (q = f)) as [->|Hne].
    + rewrite lookup_insert in Hq. injection Hq as <-. rewrite eqn_refl.
      rewrite (childless_capt _ _ D1 D2), D1, D2, D3, D4, Hp0. unfold node_ok. cbn.
      split_and!; try done. exists 0, false. unfold max_forks. split_and!; cbn; try done; lia.
    + rewrite lookup_insert_ne in Hq by done. rewrite eqn_ne by done. rewrite N.add_0_r. by apply I.
  - intros q Hq. rewrite Hnf, Hnc, Hsb, Htk. rewrite EF in Hq. apply lookup_insert_None in Hq as (Hq & Hne).
    rewrite eqn_ne by done. rewrite N.add_0_r. by apply I.
  - intros c k y p frp Hc Hp Hfp. rewrite Esh in Hc. rewrite EF in Hfp.
    destruct (decide (c = f)) as [->|Hcf].
    { rewrite lookup_insert in Hc. injection Hc as <- <-. done. }
    rewrite lookup_insert_ne in Hc by done.
    destruct (decide (p = f)) as [->|Hpf]. { exfalso. by eapply kid_count. }
    rewrite lookup_insert_ne in Hfp by done. by eapply (i_kid _ _ _ I).
  - intros c k y Hc. rewrite Esh in Hc. unfold G'. destruct (decide (c = f)) as [->|Hcf].
    + rewrite lookup_insert in Hc. injection Hc as <- <-. done.
    + rewrite lookup_insert_ne in Hc by done. pose proof (i_ghost _ _ _ I c k y Hc) as X.
      destruct k as [|p j st'|p j st']; try done.
      rewrite decide_False; [done|]. intros ->. by eapply kid_count.
  - intros q Hq. rewrite Enf in Hq. rewrite EF. rewrite lookup_insert_ne by lia. apply I. unfold f in Hq. lia.
  - rewrite Esh, Ens. eapply (stk_ok_push _ (stk s) _ (s_nexts s)); try done.
    + apply I.
    + lia.
    + unfold x. lia.
    + left. split; [done|]. done.
    + intros d0 k y Hd0. by eapply no_kids.
    + by rewrite Hxe.
  - intros j wj. rewrite Ews, Ens.
    assert (HV : forall v, s_workers s !! j = Some v -> worker_ok (s_frames s') (stk s') G' j v /\ w_stk v < x + 1).
    { intros v Hv. destruct (i_wrk _ _ _ I j v Hv) as (V1 & V2). split; [|unfold x; lia].
      eapply worker_ok_mono; [..|exact V1].
      - intros q Hq. apply sig_agree_same. rewrite EF. rewrite lookup_insert_ne; [done|].
        intros <-. pose proof (sumw_ge (wtok f) _ _ _ Hv). lia.
      - intros q Hq frq Hfq. rewrite EF. rewrite lookup_insert_ne by congruence. eauto.
      - intros q Hq. unfold G'. rewrite decide_False; [done|].
        intros ->. pose proof (sumw_ge (wtok f) _ _ _ Hv). lia.
      - intros _. apply HS2. unfold x. lia. }
    destruct (decide (j = d)) as [->|Hne].
    + rewrite list_lookup_insert by done. intros [= <-]. destruct (HV w Hd) as ((V1 & V2) & V3). split; [|done].
      split; [|exact V2]. intros q Hq. unfold w' in Hq. cbn in Hq. rewrite <- app_assoc in Hq.
      apply elem_of_app in Hq as [Hq|Hq]; [apply V1; set_solver|].
      apply elem_of_app in Hq as [Hq|Hq]; [|apply V1; set_solver].
      apply elem_of_list_singleton in Hq as ->. exists (new_frame KRoot t x). rewrite EF, lookup_insert. done.
    + rewrite list_lookup_insert_ne by done. apply HV.
  - intros j1 j2 w1 w2. rewrite Ews.
    assert (HE : forall n u, <[d := w']> (s_workers s) !! n = Some u ->
      exists u0, s_workers s !! n = Some u0 /\ eff u0 = eff u /\ w_stk u0 = w_stk u).
    { intros n u. destruct (decide (n = d)) as [->|].
      - rewrite list_lookup_insert by done. intros [= <-]. eauto.
      - rewrite list_lookup_insert_ne by done. eauto. }
    intros H1 H2 Hne He1 He2. destruct (HE _ _ H1) as (u1 & A1 & A2 & <-). destruct (HE _ _ H2) as (u2 & B1 & B2 & <-).
    eapply (i_own _ _ _ I j1 j2); eauto; congruence.
Qed.

(** ** The main theorem *)

Theorem step_good nw G s l af :
  inv nw G s -> allowed nw af l -> good nw (step l s).
Proof.
  intros I Hl. destruct l as [i fail|i|i|i v|d t]; cbn.
  - unfold wstep. destruct (s_workers s !! i) as [w|] eqn:Hi; [|done].
    destruct (w_pc w) as [|f|f|p|p| |f|b|] eqn:Hpc.
    + destruct (w_batch w) as [|f rest] eqn:Hb; [done|]. by eapply good_submitted.
    + by eapply good_stolen.
    + destruct (running _ _ _ _ _ _ I Hi Hpc) as (fr & Hf & P1 & P2 & N & _). rewrite Hf.
      destruct (f_rp fr) as [t|m st k pre|m st k|k|d t|e| |] eqn:Hr.
      * destruct t as [v|e|m st c k|m st c k|k|sk d k|e k|k]; cbn [run_task].
        -- eapply good_deliver; eauto.
        -- eapply good_deliver; eauto.
        -- destruct fail; [eapply good_fork_fail; eauto|by eapply good_fork].
        -- destruct fail; [eapply good_call_fail; eauto|by eapply good_call].
        -- by eapply good_join.
        -- destruct (sk && bool_decide (d = i)); [by eapply good_skip|by eapply good_switch].
        -- by eapply good_stash.
        -- by eapply good_where.
      * by eapply good_fork_resume.
      * destruct N as (N & _). rewrite Hr in N. done.
      * destruct N as (N & _). rewrite Hr in N. done.
      * by eapply good_switched.
      * by eapply good_capture.
      * eapply good_finish; eauto.
      * eapply good_root_destroy; eauto. destruct N as (_ & _ & _ & _ & N). rewrite Hr in N. apply N.
    + by eapply good_final.
    + by eapply good_sub.
    + by eapply good_loserel.
    + destruct (pend_run _ _ _ _ _ f I Hi (or_intror Hpc)) as (fr & Hf & _). rewrite Hf. by eapply good_join_suspend.
    + by eapply good_swrel.
    + by eapply good_self_steal.
  - unfold stale. destruct (s_workers s !! i) as [w|] eqn:Hi; [|done]. destruct (w_pc w) as [|f|f|p|p| |f|b|] eqn:Hpc; try done.
    destruct (s_frames s !! f) as [fr|] eqn:Hf; [|done].
    destruct (f_rp fr) as [t|m st k pre|m st k|k|d t|e| |] eqn:Hr; try done.
    + destruct t; try done. destruct (decide _); [done|]. by eapply good_wait.
    + by eapply good_fork_resume.
    + destruct (f_kind fr); try done. eapply good_finish; eauto.
  - unfold take. destruct (s_workers s !! i) as [w|] eqn:Hi; [|done].
    pose proof (good_take nw G s i w I Hi) as X. unfold take in X. by rewrite Hi in X.
  - by eapply good_steal.
  - by eapply good_spawn.
Qed.

Lemma init_worker n i w :
  s_workers (init n) !! i = Some w -> w = mkWorker PIdle [] [] [] (N.of_nat i) /\ (i < n)%nat.
Proof.
  cbn. intros H. rewrite list_lookup_fmap in H.
  destruct (seq 0 n !! i) as [x|] eqn:E; cbn in H; [|done]. apply lookup_seq in E as (-> & Hl).
  injection H as <-. done.
Qed.

Lemma init_sum n g : (forall x, g (mkWorker PIdle [] [] [] x) = 0) -> sumw g (s_workers (init n)) = 0.
Proof.
  intros Hg. destruct (decide (0 < sumw g (s_workers (init n)))) as [H|]; [|lia].
  apply sumw_ex in H as (i & w & Hi & Hw). apply init_worker in Hi as (-> & _). rewrite Hg in Hw. lia.
Qed.

Theorem init_inv nw : inv nw (fun _ => None) (init nw).
Proof.
  constructor.
  - cbn. rewrite fmap_length. apply seq_length.
  - done.
  - intros f _. split_and!; try apply init_sum; done.
  - done.
  - done.
  - done.
  - constructor; cbn; unfold stk; cbn; intros; rewrite ?lookup_empty in *; cbn in *; try done.
    + set_solver.
    + constructor.
    + destruct l1; done.
  - intros i w Hi. apply init_worker in Hi as (-> & Hl). cbn. split; [|lia]. split; cbn; [set_solver|done].
  - intros i j w w' H1 H2 Hne _ _. apply init_worker in H1 as (-> & _). apply init_worker in H2 as (-> & _). cbn. lia.
Qed.

Theorem reach_inv nw af s h : reach nw af s h -> exists G, inv nw G s.
Proof.
  induction 1 as [|s h l s' tr _ (G & I) Ha Hs].
  - exists (fun _ => None). apply init_inv.
  - pose proof (step_good _ _ _ _ _ I Ha) as X. by rewrite Hs in X.
Qed.

Theorem reach_safe nw af s h l : reach nw af s h -> allowed nw af l -> step l s <> Undef.
Proof.
  intros Hr Ha E. destruct (reach_inv _ _ _ _ Hr) as (G & I).
  pose proof (step_good _ _ _ _ _ I Ha) as X. by rewrite E in X.
Qed.
