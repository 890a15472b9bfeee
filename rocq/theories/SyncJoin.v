(** * Joins keep the invariant of SyncInv.v. *)

From stdpp Require Import prelude gmap list relations.
From Coq Require Import NArith Lia.
From Verif Require Import RuntimeModel RuntimeSpec RuntimeInv RuntimeStep RuntimeStep3 RuntimeStep6 SyncSpec SyncModel SyncViews
  SyncInv SyncTrans SyncAccess SyncStep SyncStep2 SyncMove.
Local Open Scope N_scope.

Lemma jr_shape i w f fr k s tr s' tr' :
  join_resume i w f fr k s tr = Next s' tr' ->
  exists fr' t, s' = put_worker i (set_pc (PRun f) w) (put_frame f (set_rp (RRun t) fr') s) /\
    f_kind fr' = f_kind fr /\ f_cells fr' = f_cells fr /\ f_stk fr' = f_stk fr /\ f_steals fr' = 0.
Proof.
  unfold join_resume, unsafe_rethrow. case_decide as D; [|done]. destruct D as (D & _).
  destruct (same_stacklet _ _ _ _) as [[]|]; try done.
  destruct (f_eflag fr); [destruct (f_eptr fr); [|done]|]; intros E; injection E as <- <-; eexists _, _; (split; [reflexivity|]); done.
Qed.

Lemma join_goal nw G G' s s' i w w1 f fr fr1 k s1 tr evs g X :
  inv nw G s -> extra s -> inv nw G' s' ->
  s_workers s !! i = Some w -> s_frames s !! f = Some fr ->
  (forall q, q ∈ pc_tok (w_pc w) -> q = f) -> (forall p, final_of w = Some p -> p = f) -> eff w = true ->
  match f_rp fr with RCall _ _ _ | RSignalled => False | _ => True end ->
  (stk s (w_stk w) = [] \/ w_stk w = f_stk fr) ->
  w1 = set_wstk (f_stk fr) w -> s1 = put_worker i w1 (put_frame f fr1 s) ->
  f_kind fr1 = f_kind fr -> f_cells fr1 = f_cells fr -> f_stk fr1 = f_stk fr ->
  join_resume i w1 f fr1 k s1 tr = Next s' evs ->
  J None s g -> (forall m, pend s g f m -> cur g (TW i) m) ->
  Forall (fun a => a = Read (LStk (f_stk fr)) \/ a = Write (LFrame f) \/ a = Write (LAt (OJoin f)) \/ a = Read (LHdr f)) X ->
  goal s' g (TW i) (X ++ join_resume_acts f fr).
Proof.
  intros I0 E I' Hi Hf Hpc Hfi Heff Hrp Hs -> -> K1 K2 K3 Hj HJ Hpd HX.
  destruct (jr_shape _ _ _ _ _ _ _ _ _ Hj) as (fr2 & t & -> & L1 & L2 & L3 & L4). clear Hj.
  set (s' := put_worker _ _ _) in *. set (fr' := set_rp (RRun t) fr2) in *.
  assert (Hw : s_workers s' = <[i := set_pc (PRun f) (set_wstk (f_stk fr) w)]> (s_workers s)).
  { subst s'. cbn. apply list_insert_insert. }
  assert (Hfs : s_frames s' = <[f := fr']> (s_frames s)).
  { subst s'. cbn. apply insert_insert. }
  assert (M1 : f_kind fr' = f_kind fr) by (cbn; congruence).
  assert (M2 : f_stk fr' = f_stk fr) by (cbn; congruence).
  assert (M3 : length (f_cells fr') = length (f_cells fr)) by (cbn; congruence).
  destruct (join_tail nw G G' s s' I0 E I' i w _ f fr fr' t Hi Hf Hpc Hfi Heff Hrp ltac:(done) eq_refl eq_refl ltac:(done)
    Hw Hfs eq_refl eq_refl eq_refl eq_refl eq_refl Hs M1 eq_refl M2 L4 M3 g HJ Hpd) as (J1 & E1).
  apply goal_end; [done|done|]. apply Forall_app. split.
  - eapply Forall_impl; [exact HX|]. intros a Ha.
    destruct (ok_reset nw G' s s' I' i w _ f fr fr' Hi Hw Hfs eq_refl eq_refl L4 None) as (O1 & O2 & O3 & O4).
    destruct Ha as [->|[->|[->| ->]]]; done.
  - eapply (ok_join_resume nw G' s s' I'); done.
Qed.

Lemma goal_assoc s' g t a b c : goal s' g t (a ++ (b ++ c)) -> goal s' g t ((a ++ b) ++ c).
Proof. by rewrite app_assoc. Qed.

Lemma no_fork s f c frc j st :
  nforks f (shape_of (s_frames s)) = 0 -> s_frames s !! c = Some frc -> f_kind frc <> KFork f j st.
Proof.
  intros H Hc Hk. pose proof (cntm_zero (is_fork f) _ _ _ (shape_lookup _ _ _ Hc) H) as X. unfold is_fork in X. cbn in X.
  rewrite Hk in X. by case_bool_decide.
Qed.

Section j.
  Context (nw : nat) (G G' : ghost) (s s' : state) (I0 : inv nw G s) (E : extra s) (I' : inv nw G' s') (g : views) (HJ : J None s g).
  Context (i : nat) (w : worker) (Hi : s_workers s !! i = Some w).

  (* await_ready, everything joined *)
  Lemma s_join_take f fr k evs :
    w_pc w = PRun f -> s_frames s !! f = Some fr -> f_rp fr = RRun (Join k) -> f_steals fr <> 0 ->
    f_steals fr = u16max - f_joins fr ->
    take_stack_join_resume i w f fr k s [] = Next s' evs ->
    goal s' g (TW i) ([Code f; Read (LFrame f)] ++ Load (OJoin f) true :: take_stack_acts (w_stk w) f fr ++ join_resume_acts f fr).
  Proof.
    intros Hpc Hf Hr H0 Hst Hs. assert (Hns : f_rp fr <> RSignalled) by (by rewrite Hr).
    assert (Hh : held s i f) by (eapply run_held; done).
    apply (goal_pre None s); [done| |].
    { oks; [by eapply ok_code|eapply okay_frame; [done|done|done|done|done]]. }
    clear g HJ. intros g HJ.
    eapply (goal_act None s); [done|eapply okay_share_held; [done|done|done|right; eauto|done]|]. intros HJ1.
    unfold take_stack_acts. cbn [app].
    eapply (goal_act None s); [done|eapply okay_share_held; [done|done|done|by left|done]|]. intros HJ2.
    eapply (goal_act None s); [done|eapply okay_stk; [done|done|unfold eff; by rewrite Hpc|done]|]. intros HJ3.
    match goal with |- goal _ ?g3 _ _ =>
      change (goal s' g3 (TW i) ([Read (LStk (f_stk fr)); Write (LFrame f); Write (LAt (OJoin f))] ++ join_resume_acts f fr)) end.
    unfold take_stack_join_resume in Hs. case_decide as D0; [done|]. destruct (stk s (w_stk w)) eqn:Hstk; [|done].
    eapply (join_goal nw G G' s s' i w _ f fr (reset fr) k); [done|done|done|done|done| | | | |by left|reflexivity|reflexivity|done|done|done|exact Hs|done| |].
    - rewrite Hpc. intros q Hq. by apply elem_of_list_singleton in Hq.
    - unfold final_of. by rewrite Hpc.
    - unfold eff. by rewrite Hpc.
    - by rewrite Hr.
    - intros m. destruct (running _ _ _ _ _ _ I0 Hi Hpc) as (fr0 & Hf0 & P1 & P2 & N0 & _). simplify_eq.
      destruct N0 as (_ & _ & _ & N4 & N5). rewrite Hr in N5. destruct N5 as (N5 & _).
      intros [H|[(H & _)|[(c & frc & j & st & Hc & Hk & _)|(j & wj & Hj & Hw & _)]]].
      + eapply held_cur; [exact I0|exact Hh|exact H].
      + left. left. by apply load_acq.
      + exfalso. eapply (no_fork s f c frc); [lia|done|done].
      + exfalso. eapply (no_final s f j wj); [lia|done|done].
    - oks; tauto.
  Qed.

  (* await_suspend *)
  Lemma susp_facts f fr :
    w_pc w = PJSusp f -> s_frames s !! f = Some fr ->
    exists k, f_rp fr = RRun (Join k) /\ f_steals fr <> 0 /\ stk s (w_stk w) = [] /\
      nforks f (shape_of (s_frames s)) + sumw (wsub f) (s_workers s) + u16max = f_steals fr + f_joins fr /\
      f_joins fr <= u16max.
  Proof.
    intros Hpc Hf. destruct (i_wrk _ _ _ I0 i w Hi) as ((_ & W) & _). rewrite Hpc in W.
    destruct W as (fr0 & k & Hf0 & W1 & W2 & W3 & _). simplify_eq. exists k.
    pose proof (i_node _ _ _ I0 _ _ Hf) as (_ & _ & _ & N4 & N5). rewrite W1 in N5. destruct N5 as (N5 & _). done.
  Qed.

  Lemma s_join_suspend f fr evs :
    w_pc w = PJSusp f -> s_frames s !! f = Some fr -> join_suspend i w f fr s = Next s' evs ->
    goal s' g (TW i) (join_suspend_acts w f fr).
  Proof.
    intros Hpc Hf Hs. destruct (susp_facts _ _ Hpc Hf) as (k & Hr & H0 & Hemp & N5 & N4).
    assert (Hns : f_rp fr <> RSignalled) by (by rewrite Hr).
    assert (Hh : held s i f) by (eapply held_run; [done|by rewrite Hpc]).
    assert (He : eff w = true) by (unfold eff; by rewrite Hpc).
    unfold join_suspend_acts, join_suspend in *. rewrite Hr in Hs. cbn [app].
    eapply (goal_act None s); [done|eapply okay_frame; [done|done|done|done|done]|].
    generalize (vstep g (TW i, Write (LFrame f))). clear g HJ. intros g HJ.
    eapply (goal_act None s); [done|eapply okay_share_held; [done|done|done|right; eauto|done]|]. intros HJ1.
    case_decide as D.
    - eapply (goal_act None s); [done|by apply okay_quiet|]. intros HJ2.
      unfold take_stack_acts. cbn [app].
      eapply (goal_act None s); [done|eapply okay_share_held; [done|done|done|by left|done]|]. intros HJ3.
      eapply (goal_act None s); [done|eapply okay_stk; [done|done|done|done]|]. intros HJ4.
      match goal with |- goal _ ?g3 _ _ =>
        change (goal s' g3 (TW i) ([Read (LStk (f_stk fr)); Write (LFrame f); Write (LAt (OJoin f))] ++ join_resume_acts f fr)) end.
      unfold take_stack_join_resume in Hs. case_decide as D0; [done|]. rewrite Hemp in Hs.
      set (fr1 := reset _) in Hs.
      eapply (join_goal nw G G' s s' i w _ f fr fr1 k); [done|done|done|done|done| | |done| |by left|reflexivity|reflexivity|done|done|done|exact Hs|done| |].
      + rewrite Hpc. intros q Hq. by apply elem_of_list_singleton in Hq.
      + unfold final_of. by rewrite Hpc.
      + by rewrite Hr.
      + intros m [H|[(H & _)|[(c & frc & j & st & Hc & Hk & _)|(j & wj & Hj & Hw & _)]]].
        * eapply held_cur; [exact I0|exact Hh|exact H].
        * left. left. apply rmw_fence; [apply HJ|exact H].
        * exfalso. eapply (no_fork s f c frc); [lia|done|done].
        * exfalso. eapply (no_final s f j wj); [lia|done|done].
      + oks; tauto.
    - set (g1 := vstep g _) in *. injection Hs as Hs _. set (fr1 := set_rp _ _) in Hs.
      assert (Hf' : s_frames s' !! f = Some fr1) by (subst s'; apply lookup_insert).
      assert (Hi' : s_workers s' !! i = Some (set_pc PSelf w)).
      { subst s'. apply list_lookup_insert. by eapply lookup_lt_Some. }
      assert (Hkn : forall m, cur g1 (TW i) m -> know s' g1 f m).
      { intros m H. eapply kn_join; [exact Hf'|done|]. by apply rmw_rel. }
      assert (X : J None s' g1 /\ extra s'); [|apply goal_end; [apply X|apply X|oks]].
      eapply (J_one s s' g1 None) with (i := i) (f := f); [by eapply inv_stkl|exact HJ1|exact E|by subst s'|by subst s'|by subst s'|by subst s'|by left|exact Hi|by subst s'|intros q Hq; subst s'; by apply lookup_insert_ne|congruence|..].
      + intros fr0 Hf0. rewrite Hf in Hf0. injection Hf0 as <-. exists fr1. split_and!; [done| |..].
        * constructor; [done|done|by left|done|done].
        * by rewrite Hr.
        * done.
        * by rewrite Hr.
        * intros m _ Hm. left. by eapply kn_join.
        * intros j wj Hne Hj [H|(H & m & st & k' & H2)]; [|done]. split; [by left|done].
      + intros q m [(H & Hm)|[(H & Hm)|(H & Hm)]].
        * rewrite Hpc in H. apply elem_of_app in H as [H|H]; [apply elem_of_list_singleton in H as ->; auto|].
          eapply kn_wrk; [exact Hi'|]. left. split; [|done]. apply elem_of_app. by right.
        * eapply kn_wrk; [exact Hi'|]. right; by left.
        * eapply kn_wrk; [exact Hi'|]. right; by right.
      + unfold final_of. by rewrite Hpc.
      + done.
      + intros p q q' Hq Hq' [(H & _)|(H & _)]; done.
      + intros m b a _ A. refine (j_req _ _ _ HJ1 _ _ _ (KT (TW i)) _ (rq_stkw _ _ _ _ _ Hi He) A).
      + intros q l m b a _ _ Hd A. exfalso. by apply (Hd i _ Hi').
  Qed.

  (* a forked child has ended *)
  Lemma s_final_sub p evs :
    w_pc w = PSub p -> final_sub i w p s = Next s' evs ->
    goal s' g (TW i) (final_sub_acts w p s).
  Proof.
    intros Hpc Hs. unfold final_sub, final_sub_acts in *.
    destruct (s_frames s !! p) as [fr|] eqn:Hf; [|done].
    assert (Hfi : final_of w = Some p) by (unfold final_of; by rewrite Hpc).
    assert (He : eff w = true) by (unfold eff; by rewrite Hpc).
    assert (Hsb : 1 <= wsub p w) by (unfold wsub; rewrite Hpc, eqn_refl; lia).
    pose proof (sumw_ge (wsub p) _ _ _ Hi) as Hge.
    pose proof (i_node _ _ _ I0 _ _ Hf) as (N1 & N2 & N3 & N4 & N5).
    destruct (same_stacklet s p fr w) as [same|] eqn:Hsame; [|done].
    assert (Hsm : (same = true /\ f_stk fr = w_stk w /\ head_is (stk s (w_stk w)) p) \/ (same = false /\ f_stk fr <> w_stk w)).
    { clear Hs. unfold same_stacklet in Hsame. case_decide as D0; [|right; split; [congruence|done]].
      destruct (stk s (w_stk w)) as [|x l] eqn:Ex; [done|]. case_decide as D1; [|done]. subst x. left.
      split_and!; [congruence|done|by exists l]. }
    cbn [app].
    eapply (goal_act None s); [done|eapply okay_share_final; [done|done|done|done|by left|done]|].
    generalize (vstep g (TW i, Read (LHdr p))). clear g HJ. intros g HJ.
    eapply (goal_act None s); [done|eapply okay_share_final; [done|done|done|done|right; eauto|done]|]. intros HJ1.
    case_decide as D.
    - (* the last one *)
      eapply (goal_act None s); [done|by apply okay_quiet|]. intros HJ2.
      destruct (f_rp fr) as [| | |k| | | |] eqn:Hr; try done.
      destruct (if same then [] else stk s (w_stk w)) eqn:Hemp; [|done].
      set (fr1 := reset _) in Hs.
      assert (Hpd : forall g' m, J None s g' -> (forall m, msg g' (OJoin p) m -> cur g' (TW i) m) ->
        pend s g' p m -> cur g' (TW i) m).
      { intros g' m HJ' Hm [H|[(H & _)|[(c & frc & j & st & Hc & Hk & _)|(j & wj & Hj & Hw & H)]]].
        - apply Hm. eapply know_join; [exact I0|exact Hf|exact Hr|exact H].
        - by apply Hm.
        - exfalso. eapply (no_fork s p c frc); [lia|done|done].
        - destruct (decide (j = i)) as [->|Hne]; [done|]. exfalso.
          pose proof (sumw_ge2 (wsub p) _ _ _ _ _ Hne Hj Hi) as Hge2.
          assert (1 <= wsub p wj); [|lia]. unfold wsub, final_of in *.
          destruct (w_pc wj); try done; injection Hw as ->; rewrite eqn_refl; lia. }
      set (g2 := vstep (vstep g _) _) in *.
      assert (Hm2 : forall m, msg g2 (OJoin p) m -> cur g2 (TW i) m).
      { intros m H. apply rmw_fence; [apply HJ|exact H]. }
      assert (HG : forall g' X, J None s g' -> (forall m, msg g' (OJoin p) m -> cur g' (TW i) m) ->
        Forall (fun a => a = Read (LStk (f_stk fr)) \/ a = Write (LFrame p) \/ a = Write (LAt (OJoin p)) \/ a = Read (LHdr p)) X ->
        goal s' g' (TW i) (X ++ join_resume_acts p fr)).
      { intros g' X HJ' Hm HX.
        eapply (join_goal nw G G' s s' i w _ p fr fr1 k); [done|done|done|done|done| | |done| | |reflexivity|reflexivity|done|done|done|exact Hs|done| |done].
        - rewrite Hpc. intros q Hq. by apply elem_of_nil in Hq.
        - intros q Hq. congruence.
        - by rewrite Hr.
        - destruct Hsm as [(-> & Hss & _)|(-> & _)]; [by right|by left].
        - intros m. by apply Hpd. }
      destruct Hsm as [(-> & Hss & _)|(-> & Hss)]; (case_decide as D2; [|]); try done; cbn [app].
      + match goal with |- goal _ ?g3 _ _ =>
          change (goal s' g3 (TW i) ([Write (LFrame p); Write (LAt (OJoin p)); Read (LHdr p)] ++ join_resume_acts p fr)) end.
        apply HG; [done|done|oks; tauto].
      + eapply (goal_act None s); [done|eapply okay_stk; [done|done|done|done]|]. intros HJ3.
        match goal with |- goal _ ?g3 _ _ =>
          change (goal s' g3 (TW i) ([Read (LStk (f_stk fr)); Write (LFrame p); Write (LAt (OJoin p)); Read (LHdr p)] ++ join_resume_acts p fr)) end.
        apply HG; [done| |oks; tauto]. intros m H. left. by apply Hm2.
    - (* others are still running *)
      set (g1 := vstep g _) in *. set (fr1 := set_joins _ _) in Hs.
      assert (Hcm : forall m, cur g1 (TW i) m -> msg g1 (OJoin p) m) by (intros; by apply rmw_rel).
      assert (HX : forall w', w_deque w' = w_deque w -> w_inbox w' = w_inbox w -> w_batch w' = w_batch w -> w_stk w' = w_stk w ->
        ((w_pc w' = PLoseRel /\ same = true) \/ (w_pc w' = PIdle /\ same = false)) ->
        s' = put_worker i w' (put_frame p fr1 s) -> J None s' g1 /\ extra s').
      { intros w' Q1 Q2 Q3 Q4 Q5 Es.
        assert (Hf' : s_frames s' !! p = Some fr1) by (subst s'; apply lookup_insert).
        assert (Hi' : s_workers s' !! i = Some w').
        { subst s'. apply list_lookup_insert. by eapply lookup_lt_Some. }
        assert (Hpn : forall m, msg g1 (OJoin p) m -> pend s' g1 p m).
        { intros m Hm. assert ((exists k, f_rp fr = RJoin k) \/ forall k, f_rp fr <> RJoin k) as [(k & Hr)|Hno] by (destruct (f_rp fr); eauto; right; done).
          - left. eapply kn_join; [exact Hf'|exact Hr|done].
          - right; left. split; [done|]. exists fr1. split; [done|]. cbn [f_joins set_joins fr1].
            pose proof (i_node _ _ _ I' _ _ Hf') as (N1' & N2' & N3' & N4' & N5').
            assert (Hsum : sumw (wsub p) (s_workers s') < sumw (wsub p) (s_workers s)).
            { subst s'. cbn [s_workers put_worker put_frame].
              pose proof (sumw_insert (wsub p) _ _ _ w' Hi) as Hsi.
              assert (wsub p w' = 0) by (unfold wsub; by destruct Q5 as [(-> & _)|(-> & _)]). lia. }
            assert (Hsh : nforks p (shape_of (s_frames s')) = nforks p (shape_of (s_frames s))).
            { subst s'. cbn [s_frames put_worker put_frame]. by rewrite (shape_upd _ _ fr). }
            assert (Hpe : sumw (wpend p) (s_workers s') = sumw (wpend p) (s_workers s)).
            { subst s'. cbn [s_workers put_worker put_frame].
              pose proof (sumw_insert (wpend p) _ _ _ w' Hi) as Hsi.
              assert (wpend p w' = wpend p w).
              { unfold wpend. rewrite Q1, Hpc. by destruct Q5 as [(-> & _)|(-> & _)]. } lia. }
            rewrite Hsh, Hpe in N5'. cbn [f_joins f_rp f_steals set_joins fr1] in N5'.
            destruct (decide (f_joins fr = 0)) as [Hz|Hz]; [|rewrite u16sub_small by lia; lia].
            intros Hmx. rewrite Hmx in N5'. rewrite Hz in N5.
            assert (0 <> u16max) by done.
            destruct (f_rp fr) as [| | |k| | | |] eqn:Hr; try (by specialize (Hno k)); lia. }
        eapply (J_one s s' g1 None) with (i := i) (w' := w') (f := p); [by eapply inv_stkl|exact HJ1|exact E|by subst s'|by subst s'|by subst s'|by subst s'|by left|exact Hi|by subst s'|intros q Hq; subst s'; by apply lookup_insert_ne|congruence|..].
        + intros fr0 Hf0. rewrite Hf in Hf0. injection Hf0 as <-. exists fr1. split_and!; [done| |..]; try done.
          * constructor; [done|done|by left|by left; eauto|done].
          * intros k m Hr Hm. by eapply kn_join.
          * intros m _ Hm. by apply Hpn.
        + intros q m [(H & Hm)|[(H & Hm)|(H & Hm)]].
          * rewrite Hpc in H. cbn in H.
            eapply kn_wrk; [exact Hi'|]. left. split; [|done]. apply elem_of_app. right. by rewrite Q3.
          * eapply kn_wrk; [exact Hi'|]. right; left. by rewrite Q1.
          * eapply kn_wrk; [exact Hi'|]. right; right. by rewrite Q2.
        + intros q m Hq Hm. rewrite Hfi in Hq. injection Hq as <-. auto.
        + intros q Hq. unfold final_of in Hq. destruct Q5 as [(Q5 & _)|(Q5 & _)]; by rewrite Q5 in Hq.
        + intros q fq fq' _ _ [(H & _)|(H & _)]; destruct Q5 as [(Q5 & _)|(Q5 & _)]; congruence.
        + intros m b a _ A. rewrite Q4 in A. refine (j_req _ _ _ HJ1 _ _ _ (KT (TW i)) _ (rq_stkw _ _ _ _ _ Hi He) A).
        + intros q l m b a Hq _ Hd A. destruct Q5 as [(Q5 & ->)|(Q5 & ->)].
          * destruct Hsm as [(_ & _ & (l' & Htop))|(? & _)]; [|done]. rewrite Htop in Hq. injection Hq as <- _.
            apply Hpn, Hcm. refine (j_req _ _ _ HJ1 _ _ _ (KT (TW i)) _ (rq_stkw _ _ _ _ _ Hi He) A).
          * exfalso. apply (Hd i _ Hi'); [unfold eff; by rewrite Q5|done]. }
      destruct Hsm as [(-> & Hss & Htop)|(-> & Hss)].
      + injection Hs as Hs _. pose proof (HX (set_pc PLoseRel w) eq_refl eq_refl eq_refl eq_refl (or_introl (conj eq_refl eq_refl)) (eq_sym Hs)) as X.
        apply goal_end; [apply X|apply X|oks].
      + unfold to_idle in Hs. destruct (w_deque w) eqn:Ed; [|done]. destruct (stk _ _) eqn:Es; [|done]. injection Hs as Hs _.
        pose proof (HX (set_pc PIdle w) Ed eq_refl eq_refl eq_refl (or_intror (conj eq_refl eq_refl)) (eq_sym Hs)) as X.
        apply goal_end; [apply X|apply X|oks].
  Qed.
End j.
