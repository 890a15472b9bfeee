(** * Steps that end tasks. *)

From stdpp Require Import prelude gmap list relations.
From Coq Require Import NArith Lia.
From Verif Require Import RuntimeModel RuntimeSpec RuntimeInv RuntimeStep RuntimeStep3 SyncSpec SyncModel SyncViews
  SyncInv SyncTrans SyncAccess SyncStep SyncStep2 SyncMove.
Local Open Scope N_scope.

(** ** Destroying a task *)

Section del.
  Context (nw : nat) (G : ghost) (s s' : state) (I0 : inv nw G s) (E : extra s) (g : views) (HJ : J None s g).
  Context (i : nat) (w w' : worker) (f : N) (fr : frame) (l : list N).
  Context (Hi : s_workers s !! i = Some w) (Hpc : w_pc w = PRun f) (Hf : s_frames s !! f = Some fr) (Hx : excl s i f).
  Context (Hst : f_stk fr = w_stk w) (Hl : stk s (w_stk w) = f :: l).
  Context (Hstk : forall x, x <> w_stk w -> stk s' x = stk s x) (Hnf : s_nextf s' = s_nextf s) (Hns : s_nexts s' = s_nexts s).
  Context (Hsem : forall r, sem s' r = sem s r).
  Context (Hw : s_workers s' = <[i := w']> (s_workers s)).
  Context (Hd' : w_deque w' = w_deque w) (Hb' : w_inbox w' = w_inbox w) (Hc' : w_batch w' = w_batch w)
    (Hs' : w_stk w' = w_stk w) (He' : eff w' = true).
  Context (Hdel : s_frames s' !! f = None).
  Context (HL : forall q, q <> f -> live s q -> live s' q).
  Context (HF : forall q qr', s_frames s' !! q = Some qr' -> exists qr, s_frames s !! q = Some qr /\
    fcompat s s' g g q qr qr' /\ f_joins qr' = f_joins qr /\ length (f_cells qr') = length (f_cells qr) /\
    (qr' = qr \/ (par (f_kind fr) = Some q /\ kindb (f_kind fr) = true /\ (exists t, f_rp qr' = RRun t) /\
       exists x y k, f_rp qr = RCall x y k))).
  Context (Hup : forall m p, cur g (TW i) m -> par (f_kind fr) = Some p ->
    if kindb (f_kind fr) then know s' g p m else pend s' g p m).
  Context (Hfin : forall p, final_of w' = Some p -> par (f_kind fr) = Some p /\ kindb (f_kind fr) = false).
  Context (Hlast : forall p qr', s_frames s' !! p = Some qr' -> lastc w' p qr' ->
    par (f_kind fr) = Some p /\ kindb (f_kind fr) = false /\ exists d, w_deque w = p :: d).

  Local Lemma d_self : s_workers s' !! i = Some w'.
  Proof. rewrite Hw. apply list_lookup_insert. by eapply lookup_lt_Some. Qed.
  Local Lemma d_oth j : j <> i -> s_workers s' !! j = s_workers s !! j.
  Proof. intros H. rewrite Hw. by apply list_lookup_insert_ne. Qed.
  Local Lemma d_held : held s i f.
  Proof. apply Hx. Qed.
  Local Lemma d_know m : know s g f m -> cur g (TW i) m.
  Proof. intros H. eapply held_cur; [exact I0|exact d_held|exact H]. Qed.
  Local Lemma d_pend m : pend s g f m -> cur g (TW i) m.
  Proof. intros H. eapply excl_cur; [exact I0|exact Hx|exact H]. Qed.
  Local Lemma d_ne q : live s' q -> q <> f.
  Proof. intros (qr & H) ->. congruence. Qed.
  Local Lemma d_fwd q qr : s_frames s !! q = Some qr -> q <> f -> exists qr', s_frames s' !! q = Some qr' /\
    f_kind qr' = f_kind qr.
  Proof.
    intros H Hne. destruct (HL q Hne) as (qr' & H'); [by exists qr|]. destruct (HF _ _ H') as (qr0 & H0 & C & _). simplify_eq.
    exists qr'. split; [done|apply C].
  Qed.

  Lemma d_TK q m : know s g q m -> live s' q -> know s' g q m.
  Proof.
    revert q m. apply know_lift.
    - intros j wj q m Hj Hk Hlv. apply d_ne in Hlv. destruct (decide (j = i)) as [->|Hne].
      + simplify_eq. eapply kn_wrk; [exact d_self|]. destruct Hk as [(H & Hm)|[(H & Hm)|(H & Hm)]].
        * left. split; [|done]. rewrite Hpc in H. apply elem_of_app in H as [H|H].
          -- by apply elem_of_list_singleton in H.
          -- apply elem_of_app. right. by rewrite Hc'.
        * right; left. by rewrite Hd'.
        * right; right. by rewrite Hb'.
      + eapply kn_wrk; [by rewrite d_oth|done].
    - intros q qr k m Hq Hr Hm (qr' & Hq'). destruct (HF _ _ Hq') as (qr0 & Hq0 & _ & _ & _ & [->|(_ & _ & _ & x & y & z & Hz)]).
      + simplify_eq. by eapply kn_join.
      + congruence.
    - intros q qr x y k c frc j st Hq Hr Hc Hk (qr' & Hq'). destruct (decide (c = f)) as [->|Hne].
      + right. intros m Hm. apply d_know in Hm. simplify_eq. pose proof (Hup m q Hm) as X. rewrite Hk in X. by apply X.
      + left. destruct (HF _ _ Hq') as (qr0 & Hq0 & _ & _ & _ & [->|(Hp & Hkb & _)]).
        * simplify_eq. destruct (d_fwd _ _ Hc Hne) as (frc' & H1 & H2). eauto 10.
        * exfalso. apply Hne. destruct (f_kind fr) as [|p j' st'|] eqn:Ek; try done. injection Hp as ->.
          eapply call_uniq; [exact I0|exact Hq|exact Hr|exact Hc|exact Hk|exact Hf|exact Ek].
  Qed.

  Lemma d_TP q m : pend s g q m -> live s' q -> pend s' g q m.
  Proof.
    intros Hp Hlv. revert Hp. apply pend_lift; [apply d_TK|done|..].
    - intros qr Hq Hj Hm. right; left. split; [done|]. destruct Hlv as (qr' & Hq').
      destruct (HF _ _ Hq') as (qr0 & Hq0 & _ & Ej & _). simplify_eq. exists qr'. by rewrite Ej.
    - intros c frc j st Hc Hk. destruct (decide (c = f)) as [->|Hne].
      + right. intros Hm. apply d_know in Hm. simplify_eq. pose proof (Hup m q Hm) as X. rewrite Hk in X. by apply X.
      + left. by eapply d_fwd.
    - intros j wj Hj Hfi Hc. destruct (decide (j = i)) as [->|Hne].
      + simplify_eq. unfold final_of in Hfi. by rewrite Hpc in Hfi.
      + right; right; right. exists j, wj. by rewrite d_oth.
  Qed.

  Local Lemma near_del c a b : near s' g c a b ->
    near s g c a b \/ (par (f_kind fr) = Some a /\ kindb (f_kind fr) = b /\ (c = f \/ exists b', near s g c f b')).
  Proof.
    assert (DN : forall q, s_frames s' !! q = None -> q <> f -> s_frames s !! q = None).
    { intros q H Hne. destruct (s_frames s !! q) as [qr|] eqn:Hq; [|done].
      destruct (d_fwd _ _ Hq Hne) as (qr' & H' & _). congruence. }
    induction 1 as [c p b qr H1 H2 H3|c p b a b' H1 H2 H3 Hn IH].
    - destruct (decide (c = f)) as [->|Hne].
      + right. destruct (j_gpa _ _ _ HJ _ _ _ H2) as (_ & _ & X). destruct (X _ Hf). auto.
      + left. destruct (HF _ _ H3) as (qr0 & H0 & _). eapply near_one; [by apply DN|done|done].
    - destruct (decide (c = f)) as [->|Hne].
      + exfalso. destruct (j_gpa _ _ _ HJ _ _ _ H2) as (_ & _ & X). destruct (X _ Hf) as (Hp & _).
        destruct (parent_live _ _ _ I0 _ _ _ Hf Hp) as (frp & Hfp). pose proof (kid_lt nw G s I0 _ _ _ Hf Hp).
        destruct (d_fwd _ _ Hfp) as (? & ? & _); [lia|congruence].
      + apply DN in H1; [|done]. destruct IH as [IH|(X1 & X2 & IH)].
        * left. assert (Hp0 : s_frames s !! p = None) by (by inversion IH). eapply near_step; eauto.
        * right. split_and!; [done|done|]. right. destruct IH as [->|(b0 & IH)].
          -- exists b. eapply near_one; eauto.
          -- exists b0. assert (Hp0 : s_frames s !! p = None) by (by inversion IH). eapply near_step; eauto.
  Qed.

  (* the last child forked by the parent is this task *)
  Local Lemma d_last p qr d n : par (f_kind fr) = Some p -> kindb (f_kind fr) = false -> w_deque w = p :: d ->
    s_frames s !! p = Some qr -> S n = length (f_cells qr) -> cellof (f_kind fr) = Some (p, n).
  Proof.
    intros Hp Hkb Hd Hq Hn. destruct (running _ _ _ _ _ _ I0 Hi Hpc) as (fr0 & Hf0 & _ & _ & _ & _ & _ & HK & _).
    assert (fr0 = fr) as -> by congruence. clear Hf0.
    pose proof (i_ghost _ _ _ I0 _ _ _ (shape_lookup _ _ _ Hf)) as Hg.
    destruct (f_kind fr) as [|p' j st|p' j st] eqn:Ek; try done. injection Hp as ->.
    rewrite Hd in HK. cbn in HK. destruct HK as (j0 & x0 & q0 & H1 & H2 & _ & H3 & _).
    rewrite Hg in H1. injection H1 as <- <-. assert (q0 = qr) as -> by congruence. cbn. f_equal. f_equal. lia.
  Qed.

  Local Lemma d_lastc j wj' p qr' : s_workers s' !! j = Some wj' -> s_frames s' !! p = Some qr' -> lastc wj' p qr' ->
    (j <> i /\ exists qr, s_frames s !! p = Some qr /\ length (f_cells qr') = length (f_cells qr) /\
       s_workers s !! j = Some wj' /\ lastc wj' p qr) \/
    (j = i /\ exists qr d, s_frames s !! p = Some qr /\ length (f_cells qr') = length (f_cells qr) /\
       par (f_kind fr) = Some p /\ kindb (f_kind fr) = false /\ w_deque w = p :: d).
  Proof.
    intros Hj Hq La. destruct (HF _ _ Hq) as (qr & H0 & C & Ej & El & Hch). destruct (decide (j = i)) as [->|Hne].
    - right. rewrite d_self in Hj. injection Hj as <-. destruct (Hlast _ _ Hq La) as (H1 & H2 & d & H3). eauto 10.
    - left. split; [done|]. rewrite d_oth in Hj by done. exists qr. split_and!; [done|done|done|].
      destruct Hch as [->|(_ & _ & (t & Ht) & _)]; [done|].
      destruct La as [?|(? & m & st & k & H)]; [by left|congruence].
  Qed.

  Lemma J_del : J None s' g /\ extra s'.
  Proof.
    split.
    - eapply (J_trans None s g s' g); [done|by eapply ext_refl|lia|lia|by left|..].
      + intros q qr' Hq. left. destruct (HF _ _ Hq) as (qr & H1 & H2 & _). eauto.
      + apply d_TK.
      + apply d_TP.
      + intros j wj' p Hj Hfi. destruct (decide (j = i)) as [->|Hne].
        * right. rewrite d_self in Hj. injection Hj as <-. exists f, fr. split_and!; [done|by apply Hfin|].
          intros m. apply d_know.
        * left. rewrite d_oth in Hj by done. eauto.
      + intros j wj' p qr' n m b a Hj Hq La Hn A. destruct (d_lastc _ _ _ _ Hj Hq La) as [(Hne & qr & H1 & H2 & H3 & H4)|
          (-> & qr & d & H1 & H2 & H3 & H4 & H5)].
        * rewrite H2 in Hn. refine (j_req _ _ _ HJ _ _ _ (KT (TW j)) _ (rq_last _ _ _ _ _ _ _ _ H3 H1 H4 Hn) A).
        * apply d_know. rewrite H2 in Hn. pose proof (d_last _ _ _ _ H3 H4 H5 H1 Hn) as Hc.
          refine (j_req _ _ _ HJ _ _ _ (KF f) _ (rq_cell _ _ _ _ _ _ _ Hf Hc) A).
      + intros j wj' m b a Hj He A. destruct (decide (j = i)) as [->|Hne].
        * rewrite d_self in Hj. injection Hj as <-. rewrite Hs' in A.
          refine (j_req _ _ _ HJ _ _ _ (KT (TW i)) _ (rq_stkw _ _ _ _ _ Hi _) A). unfold eff. by rewrite Hpc.
        * rewrite d_oth in Hj by done. refine (j_req _ _ _ HJ _ _ _ (KT (TW j)) _ (rq_stkw _ _ _ _ _ Hj He) A).
      + intros x q l' m b a Hq Hd A. destruct (decide (x = w_stk w)) as [->|Hne].
        { exfalso. by apply (Hd i w' d_self). }
        rewrite Hstk in Hq by done.
        assert (Hd0 : detached s x).
        { intros j wj Hj He. destruct (decide (j = i)) as [->|Hji]; [congruence|]. apply (Hd j wj); [by rewrite d_oth|done]. }
        apply d_TP.
        * apply (j_req _ _ _ HJ _ _ _ (KP q) _ (rq_stkd _ _ _ _ _ _ Hq Hd0) A).
        * apply HL; [|by eapply stk_live]. intros ->.
          destruct (so_dom _ _ _ (i_stk _ _ _ I0) f x) as (k & Hk); [rewrite Hq; by left|].
          rewrite (shape_lookup _ _ _ Hf) in Hk. congruence.
      + intros r Hr. left. by rewrite <- Hsem.
      + intros c a b m Hn Hc. destruct (near_del _ _ _ Hn) as [H|(H1 & H2 & H)].
        * pose proof (j_near _ _ _ HJ _ _ _ _ H Hc) as X. pose proof (near_live _ _ _ _ _ Hn) as L.
          destruct b; [by apply d_TK|by apply d_TP].
        * assert (Hcur : cur g (TW i) m).
          { destruct H as [->|(b' & H)].
            - apply d_know. refine (j_req _ _ _ HJ _ _ _ (KF f) _ (rq_frame _ _ _ _ _ Hf) _). by apply (j_cod _ _ _ HJ).
            - apply d_pend. pose proof (j_near _ _ _ HJ _ _ _ _ H Hc) as X. destruct b'; [by left|done]. }
          pose proof (Hup _ _ Hcur H1) as X. by rewrite H2 in X.
    - eapply (extra_trans s); [exact E|lia|..].
      + intros c qr' Hq. left. destruct (HF _ _ Hq) as (qr & H1 & H2 & _). exists qr. split; [done|apply H2].
      + intros j wj' p qr' n Hj Hq La Hn c frc' Hc. destruct (HF _ _ Hc) as (frc & Hc0 & C & _).
        rewrite (fc_kind _ _ _ _ _ _ _ C).
        destruct (d_lastc _ _ _ _ Hj Hq La) as [(Hne & qr & H1 & H2 & H3 & H4)|
          (-> & qr & d & H1 & H2 & H3 & H4 & H5)]; rewrite H2 in Hn.
        * by eapply (e_quiet _ E).
        * intros Hcc. pose proof (d_last _ _ _ _ H3 H4 H5 H1 Hn) as Hcf.
          pose proof (e_uniq _ E _ _ _ _ _ Hc0 Hf Hcc Hcf). subst c. congruence.
      + intros r Hr. rewrite Hsem in Hr. destruct (e_sem _ E _ Hr) as (H1 & H2). split; [lia|].
        intros qr' Hq. destruct (HF _ _ Hq) as (qr & H0 & _ & _ & _ & [->|(_ & _ & _ & x & y & k & H3)]); [auto|].
        specialize (H2 _ H0). congruence.
  Qed.
End del.

(** ** The steps *)

Lemma ok_destroy nw G s i w f fr nb :
  inv nw G s -> s_workers s !! i = Some w -> w_pc w = PRun f -> excl s i f -> f_stk fr = w_stk w ->
  Forall (okay nb s (TW i)) (destroy_acts f fr).
Proof.
  intros I0 Hi Hpc Hx Hst. unfold destroy_acts. apply Forall_map_acts. intros l Hl.
  assert (HO : ownl f l -> okay nb s (TW i) (Write l)) by (intros; by eapply okay_own).
  apply elem_of_app in Hl as [Hl|Hl].
  - rewrite !elem_of_cons in Hl. unfold ownl, shared in HO.
    destruct Hl as [->|[->|[->|[->|[->|[->|Hl]]]]]]; [apply HO..|by apply elem_of_nil in Hl]; tauto.
  - apply elem_of_app in Hl as [Hl|Hl].
    + unfold cells in Hl. apply elem_of_list_fmap in Hl as (j & -> & _). apply HO. right; right. right; right; right; right. eauto.
    + apply elem_of_list_singleton in Hl as ->. rewrite Hst. eapply okay_stk; [done|done|unfold eff; by rewrite Hpc|done].
Qed.

Lemma stk_put x l s y : stk (put_stack x l s) y = if decide (y = x) then l else stk s y.
Proof.
  unfold stk, put_stack. cbn. case_decide as D0; [subst; by rewrite lookup_insert|by rewrite lookup_insert_ne].
Qed.

Section end_.
  Context (nw : nat) (G : ghost) (s : state) (I0 : inv nw G s) (E : extra s).
  Context (i : nat) (w : worker) (f : N) (fr : frame).
  Context (Hi : s_workers s !! i = Some w) (Hpc : w_pc w = PRun f) (Hf : s_frames s !! f = Some fr).

  Local Lemma destroy_inv s1 : destroy w f fr s = Some s1 -> exists l, f_stk fr = w_stk w /\ stk s (w_stk w) = f :: l /\
    s1 = put_stack (w_stk w) l (del_frame f s).
  Proof. unfold destroy. intros H. repeat case_match; simplify_eq. eauto. Qed.

  Lemma s_root_destroy g s' evs :
    J None s g -> f_rp fr = RSignalled -> root_destroy i w f fr s = Next s' evs ->
    goal s' g (TW i) (destroy_acts f fr).
  Proof.
    intros HJ Hr Hs. pose proof (i_node _ _ _ I0 _ _ Hf) as (_ & _ & _ & _ & N). rewrite Hr in N.
    destruct N as (_ & _ & N1 & _ & _ & N2).
    assert (Hx : excl s i f) by (by eapply excl_run).
    unfold root_destroy in Hs. destruct (destroy w f fr s) as [s1|] eqn:Ed; [|done].
    destruct (destroy_inv _ Ed) as (l & E1 & E2 & ->). unfold to_idle in Hs. repeat case_match; simplify_eq.
    rewrite <- (app_nil_r (destroy_acts _ _)). apply (goal_pre None s); [done|by eapply ok_destroy|].
    intros g' HJ'. set (s' := put_worker _ _ _).
    destruct (J_del nw G s s' I0 E g' HJ' i w (set_pc PIdle w) f fr) as (X1 & X2); try done.
    - intros x Hne. unfold s'. change (stk (put_worker _ _ ?z) x) with (stk z x). rewrite stk_put, decide_False by done. done.
    - apply lookup_delete.
    - intros q Hne (qr & Hq). exists qr. cbn. by rewrite lookup_delete_ne.
    - intros q qr' Hq. cbn in Hq. apply lookup_delete_Some in Hq as (Hne & Hq). exists qr'.
      split_and!; [done|apply fcompat_refl|done|done|by left].
    - intros m p _ Hp. by rewrite N2 in Hp.
    - intros p qr' Hq [(HH & _)|(HH & _)]; done.
  Qed.

  Lemma s_finish_fork seen g s' evs p j st :
    J None s g -> f_rp fr = RFinal -> f_kind fr = KFork p j st -> finish seen i w f fr s = Next s' evs ->
    goal s' g (TW i) (finish_acts seen f fr s).
  Proof.
    intros HJ Hr Hk Hs. pose proof (i_node _ _ _ I0 _ _ Hf) as (_ & _ & _ & _ & N). rewrite Hr in N.
    destruct N as (_ & _ & N1 & _ & _).
    assert (Hx : excl s i f) by (by eapply excl_run).
    unfold finish in Hs. case_decide as D0; [|done]. rewrite Hk in Hs. destruct (destroy w f fr s) as [s1|] eqn:Ed; [|done].
    destruct (destroy_inv _ Ed) as (l & E1 & E2 & ->). simplify_eq. unfold finish_acts. rewrite Hk.
    rewrite <- (app_nil_r (_ ++ _)). apply (goal_pre None s); [done| |].
    { apply Forall_app. split; [|by eapply ok_destroy]. oks.
      - eapply okay_own; [done|done|by left|done|done].
      - eapply okay_own; [done|done|right; right; by left|done|done]. }
    intros g' HJ'. set (w' := set_pc (PFinal p) w). set (s' := put_worker _ _ _).
    assert (Hi' : s_workers s' !! i = Some w') by (apply list_lookup_insert; by eapply lookup_lt_Some).
    destruct (J_del nw G s s' I0 E g' HJ' i w w' f fr) as (X1 & X2); try done.
    - intros x Hne. unfold s'. change (stk (put_worker _ _ ?z) x) with (stk z x). rewrite stk_put, decide_False by done. done.
    - apply lookup_delete.
    - intros q Hne (qr & Hq). exists qr. cbn. by rewrite lookup_delete_ne.
    - intros q qr' Hq. cbn in Hq. apply lookup_delete_Some in Hq as (Hne & Hq). exists qr'.
      split_and!; [done|apply fcompat_refl|done|done|by left].
    - intros m q Hm Hp. rewrite Hk in Hp |- *. injection Hp as <-. cbn. right; right; right. exists i, w'. done.
    - intros q H. rewrite Hk. cbn in H |- *. injection H as <-. done.
    - intros q qr' Hq [(H & d & Hd)|(H & _)]; [|done]. rewrite Hk. cbn in H |- *. injection H as <-. eauto.
  Qed.

  (** *** A called task resumes its caller *)

  Section caller.
    Context (p : N) (j : nat) (st : bool) (frp : frame) (x : cmod) (y : bool) (kk : cres -> task).
    Context (Hk : f_kind fr = KCall p j st) (Hp : s_frames s !! p = Some frp) (Hrp : f_rp frp = RCall x y kk).

    Local Lemma c_held : held s i f.
    Proof. eapply held_run; [done|by rewrite Hpc]. Qed.
    Local Lemma c_know g m : know s g p m -> cur g (TW i) m.
    Proof.
      intros H. eapply held_cur; [exact I0|exact c_held|]. eapply know_call; [exact I0|exact Hp|exact Hrp|exact Hf|exact Hk|done].
    Qed.
    Local Lemma c_grant : grants s (TW i) (KF p).
    Proof.
      intros g m Hm. cbn. eapply (kn_call s g p frp x y kk f fr j st); [done..|].
      by apply (grant_held s i f c_held).
    Qed.
    Local Lemma c_grantp : grants s (TW i) (KP p).
    Proof. intros g m Hm. left. by apply c_grant. Qed.

    Lemma okay_caller_frame nb a b : access a = Some (LFrame p, b, false) -> (forall h, a <> Code h) -> okay nb s (TW i) a.
    Proof.
      intros Ha Hc. apply (okay_intro nb s _ a (LFrame p) b false); [done|..].
      - destruct a as [| [] | | | | | |]; done.
      - intros g m w' a' HJ A _ _. apply c_know.
        apply (j_req _ _ _ HJ _ _ _ (KF p) _ (rq_frame _ _ _ _ _ Hp) A).
      - intros k R. inversion R; subst; try (by apply c_grant).
        all: repeat match goal with
          | H : shared _ _ |- _ => destruct H as [?|[?|[?|[?|(? & ?)]]]]; done
          | H : ctl _ _ _ _ |- _ => destruct H as [(? & _)|([?|?] & _)]; done end.
      - intros h [= <-] Hlt. pose proof (live_lt nw G s I0 _ _ Hp). lia.
      - done.
      - intros h g -> HJ. by destruct (Hc h).
      - intros (q & [?|[?|?]]); done.
    Qed.

    Lemma okay_caller_own nb a l b : f_steals frp = 0 -> l = LExn p \/ l = LAt (OFlag p) ->
      access a = Some (l, b, false) -> okay nb s (TW i) a.
    Proof.
      intros Hst0 Hl Ha. pose proof (i_node _ _ _ I0 _ _ Hp) as (_ & N1 & _ & N2 & N3). rewrite Hrp in N1, N3.
      destruct N3 as (N3 & _). rewrite Hst0 in N3.
      assert (Z1 : nforks p (shape_of (s_frames s)) = 0) by lia.
      assert (Z2 : sumw (wsub p) (s_workers s) = 0) by lia.
      assert (Z3 : f_joins frp = u16max) by lia.
      assert (Hff : floc l = Some p) by (by destruct Hl as [-> | ->]).
      assert (Hct : forall q w' a', ctl q l w' a' -> q = p).
      { intros q w' a' [(-> & _)|([-> | ->] & _)]; by injection Hff. }
      assert (Hkid : forall c frc, s_frames s !! c = Some frc -> par (f_kind frc) = Some p -> c = f).
      { intros c frc Hc Hpc0. destruct (f_kind frc) as [|q j' st'|q j' st'] eqn:Ek; [done|..]; injection Hpc0 as ->.
        - eapply call_uniq; [exact I0|exact Hp|exact Hrp|exact Hc|exact Ek|exact Hf|exact Hk].
        - exfalso. pose proof (cntm_zero (is_fork p) _ _ _ (shape_lookup _ _ _ Hc) Z1) as X. unfold is_fork in X. cbn in X.
          rewrite Ek in X. by case_bool_decide. }
      assert (Hsp : shared p l) by (unfold shared; tauto).
      apply (okay_intro nb s _ a l b false); [done|..].
      - destruct Hl as [-> | ->]; destruct a as [| [] | | | | | |]; try done; injection Ha as ->; done.
      - intros g m w' a' HJ A _ _. apply c_know. eapply pend_know; [exact Hp|done|done|done|].
        apply (j_req _ _ _ HJ _ _ _ (KP p) _ (rq_share _ _ _ _ _ _ Hp Hsp) A).
      - intros k R. inversion R as [| |f' fr' ? ? ? Hf' Hsh|f' fr' ? ? ? Hf' Hc0|c fr' q ? ? ? Hf' Hq Hc0|j' wk q ? ? ? Hj Hw Hc0|
          | |f' fr' ? ? Hf' He0|c fr' q frq ? ? Hf' Hq Hfq He0|c fr' q e ? ? Hf' Hq He0| | | | | | |]; subst;
          try (by destruct Hl).
        + assert (f' = p) as ->; [|apply c_grantp].
          destruct Hl as [-> | ->]; destruct Hsh as [H|[H|[H|[H|(j' & H)]]]]; congruence.
        + rewrite (Hct _ _ _ Hc0). apply c_grant.
        + rewrite (Hct _ _ _ Hc0) in Hq. rewrite (Hkid _ _ Hf' Hq). apply grant_held, c_held.
        + rewrite (Hct _ _ _ Hc0) in Hw. exfalso. by apply (no_final s p j' wk Z2 Hj).
        + assert (f' = p) as -> by (destruct Hl; congruence). apply c_grant.
        + assert (q = p) as -> by (destruct Hl; congruence). rewrite (Hkid _ _ Hf' Hq). apply grant_held, c_held.
        + assert (q = p) as -> by (destruct Hl; congruence). rewrite (Hkid _ _ Hf' Hq). apply grant_held, c_held.
      - intros h Hfl Hlt. rewrite Hff in Hfl. injection Hfl as <-. pose proof (live_lt nw G s I0 _ _ Hp). lia.
      - intros z ->. by destruct Hl.
      - intros h g ->. injection Ha as <- _. by destruct Hl.
      - intros (q & [-> |[-> | ->]]); done.
    Qed.

    Lemma caller_kid c frc : f_steals frp = 0 -> s_frames s !! c = Some frc -> par (f_kind frc) = Some p -> c = f.
    Proof.
      intros Hst0 Hc Hpc0. pose proof (i_node _ _ _ I0 _ _ Hp) as (_ & N1 & _ & N2 & N3). rewrite Hrp in N1, N3.
      destruct N3 as (N3 & _). rewrite Hst0 in N3.
      assert (Z1 : nforks p (shape_of (s_frames s)) = 0) by lia.
      destruct (f_kind frc) as [|q j' st'|q j' st'] eqn:Ek; [done|..]; injection Hpc0 as ->.
      - eapply call_uniq; [exact I0|exact Hp|exact Hrp|exact Hc|exact Ek|exact Hf|exact Hk].
      - exfalso. pose proof (cntm_zero (is_fork p) _ _ _ (shape_lookup _ _ _ Hc) Z1) as X. unfold is_fork in X. cbn in X.
        rewrite Ek in X. by case_bool_decide.
    Qed.

    Lemma caller_pend g m : f_steals frp = 0 -> pend s g p m -> cur g (TW i) m.
    Proof.
      intros Hst0 H. pose proof (i_node _ _ _ I0 _ _ Hp) as (_ & N1 & _ & N2 & N3). rewrite Hrp in N1, N3.
      destruct N3 as (N3 & _). rewrite Hst0 in N3.
      apply c_know. eapply pend_know; [exact Hp|lia|lia|lia|done].
    Qed.

    Lemma ok_caller seen nb : Forall (okay nb s (TW i))
      (Read (LHdr p) :: match x, y with
        | MEager, true =>
          Read (LFrame p) :: if decide (f_steals frp = 0) then rethrow_acts p frp else [Load (OFlag p) seen]
        | MEagerOutside, true => if decide (f_steals frp = 0) then rethrow_acts p frp else []
        | _, _ => []
        end ++ last_cell_acts p frp).
    Proof.
      assert (Hpar : par (f_kind fr) = Some p) by (by rewrite Hk).
      pose proof c_held as Hh.
      assert (A1 : okay nb s (TW i) (Read (LHdr p))).
      { eapply okay_share_kid; [done|done|done|done|done|by left|done]. }
      assert (A2 : okay nb s (TW i) (Read (LFrame p))) by (by eapply okay_caller_frame).
      assert (A3 : okay nb s (TW i) (Load (OFlag p) seen)).
      { eapply okay_share_kid; [done|done|done|done|done|right; eauto|done]. }
      assert (A4 : f_steals frp = 0 -> Forall (okay nb s (TW i)) (rethrow_acts p frp)).
      { intros H0. unfold rethrow_acts. oks; [eapply okay_caller_own; [done|by right|done]|].
        destruct (f_eflag frp); oks; [eapply okay_caller_own; [done|by left|done]|eapply okay_caller_own; [done|by right|done]]. }
      oks; [done|]. apply Forall_app. split.
      - destruct x, y; oks; try done; destruct (decide (f_steals frp = 0)); auto; by oks.
      - unfold last_cell_acts. destruct (length (f_cells frp)) as [|n] eqn:El; [oks|]. oks.
        eapply okay_cell; [done|done|done|done| |done].
        destruct (i_kid _ _ _ I0 f (f_kind fr) (f_stk fr) p frp) as (K & _); [by apply shape_lookup|done|done|].
        unfold kid_ok in K. cbn in K. rewrite Hk in K |- *. cbn. destruct K as (K & _). f_equal. f_equal. lia.
    Qed.
  End caller.

  Local Lemma call_resume_inv seen p frp m st k s1 tr s' evs :
    call_resume seen i w p frp m st k s1 tr = Next s' evs -> exists t fr',
      s' = put_worker i (set_pc (PRun p) w) (put_frame p (set_rp (RRun t) fr') s1) /\
      (fr' = frp \/ (fr' = set_exc false None frp /\ f_steals frp = 0)) /\
      (m = MEagerOutside -> st = true -> f_steals frp = 0).
  Proof. unfold call_resume, unsafe_rethrow. intros H. repeat case_match; simplify_eq; (eexists _, _; split; [done|split; [by auto|done]]). Qed.

  Lemma s_finish_call seen g G' s' evs p j st :
    J None s g -> inv nw G' s' -> f_rp fr = RFinal -> f_kind fr = KCall p j st -> finish seen i w f fr s = Next s' evs ->
    goal s' g (TW i) (finish_acts seen f fr s).
  Proof.
    intros HJ I' Hr Hk Hs. pose proof (i_node _ _ _ I0 _ _ Hf) as (_ & _ & _ & _ & N). rewrite Hr in N.
    destruct N as (_ & _ & N1 & _ & _).
    assert (Hx : excl s i f) by (by eapply excl_run).
    unfold finish in Hs. case_decide as D0; [|done]. rewrite Hk in Hs. destruct (destroy w f fr s) as [s1|] eqn:Ed; [|done].
    destruct (destroy_inv _ Ed) as (l & E1 & E2 & ->).
    assert (Hpar : par (f_kind fr) = Some p) by (by rewrite Hk).
    pose proof (kid_lt nw G s I0 _ _ _ Hf Hpar) as Hlt.
    cbn [s_frames put_stack del_frame] in Hs. rewrite lookup_delete_ne in Hs by lia.
    destruct (s_frames s !! p) as [frp|] eqn:Hp; [|done].
    destruct (f_rp frp) as [| |x y kk| | | | |] eqn:Hrp; try done.
    destruct (call_resume_inv _ _ _ _ _ _ _ _ _ _ Hs) as (t & fr' & Es & Hfr' & Hout). clear Hs.
    unfold finish_acts. rewrite Hk, Hp, Hrp. unfold call_resume_acts.
    pose proof (ok_caller p j st frp x y kk Hk Hp Hrp seen None) as Hok.
    assert (Hm : match x, y with
        | MEager, true =>
          Read (LFrame p) :: if decide (f_steals frp = 0) then rethrow_acts p frp else [Load (OFlag p) seen]
        | MEagerOutside, true => if decide (f_steals frp = 0) then rethrow_acts p frp else []
        | _, _ => []
        end = match x, y with
        | MEager, true =>
          Read (LFrame p) :: if decide (f_steals frp = 0) then rethrow_acts p frp else [Load (OFlag p) seen]
        | MEagerOutside, true => rethrow_acts p frp
        | _, _ => []
        end).
    { destruct x, y; try done. rewrite decide_True by (by apply Hout). done. }
    rewrite Hm in Hok. clear Hm.
    set (mid := match x, y with
        | MEager, true =>
          Read (LFrame p) :: if decide (f_steals frp = 0) then rethrow_acts p frp else [Load (OFlag p) seen]
        | MEagerOutside, true => rethrow_acts p frp
        | _, _ => []
        end) in *.
    replace ([Write (LFrame f); Read (LHdr f)] ++ destroy_acts f fr ++ Read (LHdr p) :: mid ++ last_cell_acts p frp ++ [Code p])
      with (([Write (LFrame f); Read (LHdr f)] ++ destroy_acts f fr ++ Read (LHdr p) :: mid ++ last_cell_acts p frp) ++ [Code p]).
    2: { rewrite <- !app_assoc. cbn. rewrite <- !app_assoc. done. }
    apply (goal_pre None s); [done| |].
    { apply Forall_app. split; [|apply Forall_app; split; [by eapply ok_destroy|done]]. oks.
      - eapply okay_own; [done|done|by left|done|done].
      - eapply okay_own; [done|done|right; right; by left|done|done]. }
    intros g' HJ'. set (w' := set_pc (PRun p) w) in *.
    assert (Hi' : s_workers s' !! i = Some w').
    { subst s'. apply list_lookup_insert; by eapply lookup_lt_Some. }
    assert (Hp' : s_frames s' !! p = Some (set_rp (RRun t) fr')) by (subst s'; apply lookup_insert).
    assert (Hfo : forall q, q <> p -> s_frames s' !! q = delete f (s_frames s) !! q).
    { intros q Hne. subst s'. by apply lookup_insert_ne. }
    assert (Hkn : forall m, cur g' (TW i) m -> know s' g' p m).
    { intros m Hcu. eapply kn_wrk; [exact Hi'|]. left. split; [by left|done]. }
    assert (Hback : forall q qr', s_frames s' !! q = Some qr' -> q <> f).
    { intros q qr' Hq ->. rewrite Hfo, lookup_delete in Hq by lia. done. }
    assert (Hkd : f_kind fr' = f_kind frp) by (by destruct Hfr' as [-> |(-> & _)]).
    destruct (J_del nw G s s' I0 E g' HJ' i w w' f fr) as (X1 & X2); try (by subst s'); try done.
    - intros z Hne. subst s'. change (stk (put_worker _ _ (put_frame _ _ ?u)) z) with (stk u z). rewrite stk_put, decide_False by done. done.
    - rewrite Hfo by lia. apply lookup_delete.
    - intros q Hne (qr & Hq). destruct (decide (q = p)) as [->|Hqp]; [by eexists|]. exists qr. rewrite Hfo by done.
      by rewrite lookup_delete_ne.
    - intros q qr' Hq. pose proof (Hback _ _ Hq) as Hne. destruct (decide (q = p)) as [->|Hqp].
      + rewrite Hp' in Hq. injection Hq as <-. exists frp. split_and!; [done| | | |].
        * constructor; [by cbn|cbn; by destruct Hfr' as [-> |(-> & _)]| |done|cbn; by rewrite Hrp].
          cbn. intros He. destruct Hfr' as [-> |(-> & H0)]; [by left|]. right. split.
          -- intros c frc Hc Hcp. pose proof (Hback _ _ Hc) as Hcf. destruct (decide (c = p)) as [->|Hcp'].
             ++ rewrite Hp' in Hc. injection Hc as <-. cbn in Hcp.
                pose proof (kid_lt nw G s I0 _ _ _ Hp Hcp). lia.
             ++ rewrite Hfo, lookup_delete_ne in Hc by done. apply Hcf.
                by eapply (caller_kid p j st frp x y kk Hk Hp Hrp c frc).
          -- intros m Hm. apply Hkn. eapply (caller_pend p j st frp x y kk Hk Hp Hrp); [done|done].
        * cbn. by destruct Hfr' as [-> |(-> & _)].
        * cbn. by destruct Hfr' as [-> |(-> & _)].
        * right. rewrite Hk. split_and!; [done|done|by exists t|eauto].
      + rewrite Hfo in Hq by done. apply lookup_delete_Some in Hq as (_ & Hq). exists qr'.
        split_and!; [done|apply fcompat_refl|done|done|by left].
    - intros m q Hcu Hq. rewrite Hk in Hq |- *. injection Hq as <-. by apply Hkn.
    - intros q qr' Hq [(H & _)|(H & m & st0 & k0 & H2)]; [done|]. cbn in H. injection H as <-. rewrite Hp' in Hq. by simplify_eq.
    - apply goal_end; [done|done|]. oks. eapply ok_code; [exact I'|exact X2|exact Hi'|done|exact Hp'|done].
  Qed.

  (** *** The root *)

  Lemma tree_near g c r frr : J None s g -> s_frames s !! r = Some frr ->
    nforks r (shape_of (s_frames s)) = 0 -> ncalls r (shape_of (s_frames s)) = 0 ->
    tree g c r -> c = r \/ (s_frames s !! c = None /\ exists b, near s g c r b).
  Proof.
    intros HJ Hrr H1 H2 Ht. induction Ht as [c|c p r (b & Hb) _ IH]; [by left|].
    right. destruct (s_frames s !! c) as [frc|] eqn:Hc.
    - exfalso. destruct (j_gpa _ _ _ HJ _ _ _ Hb) as (_ & _ & X). destruct (X _ Hc) as (Hp & _).
      destruct (IH Hrr H1 H2) as [->|(Hd & _)].
      + by eapply (no_kid s r c frc).
      + destruct (parent_live _ _ _ I0 _ _ _ Hc Hp) as (? & ?). congruence.
    - split; [done|]. destruct (IH Hrr H1 H2) as [->|(Hd & b' & Hn)].
      + exists b. by eapply near_one.
      + exists b'. by eapply near_step.
  Qed.

  Lemma s_finish_root seen g s' evs :
    J None s g -> f_rp fr = RFinal -> f_kind fr = KRoot -> finish seen i w f fr s = Next s' evs ->
    goal s' g (TW i) (finish_acts seen f fr s).
  Proof.
    intros HJ Hr Hk Hs. pose proof (i_node _ _ _ I0 _ _ Hf) as (_ & _ & _ & _ & N). rewrite Hr in N.
    destruct N as (_ & _ & N1 & _ & _).
    assert (Hx : excl s i f) by (by eapply excl_run).
    pose proof Hx as (Hh & Z1 & Z2 & _).
    unfold finish in Hs. case_decide as D0; [|done]. rewrite Hk in Hs. injection Hs as Es _.
    unfold finish_acts. rewrite Hk.
    apply (goal_pre None s); [done| |].
    { oks.
      - eapply okay_own; [done|done|by left|done|done].
      - eapply okay_own; [done|done|right; right; by left|done|done]. }
    intros g0 HJ0. eapply (goal_act None s); [done| |].
    { eapply okay_sem with (r := f) (w := true) (k0 := KF f); [|done| | |done].
      - by eapply live_lt.
      - intros w0. by eapply rq_semk.
      - intros g1 m. cbn. intros Hm. eapply held_cur; [exact I0|exact Hh|exact Hm]. }
    intros HJ1. set (g1 := vstep g0 _) in *.
    assert (Hrel : forall m, cur g1 (TW i) m -> msg g1 (OSem f) m) by (intros m; apply rmw_rel).
    assert (Hkc : forall m, know s g1 f m -> msg g1 (OSem f) m).
    { intros m Hm. apply Hrel. eapply held_cur; [exact I0|exact Hh|exact Hm]. }
    assert (L1 : s_frames s' !! f = Some (set_rp RSignalled fr)) by (subst s'; apply lookup_insert).
    assert (L2 : forall q, q <> f -> s_frames s' !! q = s_frames s !! q) by (intros; subst s'; by apply lookup_insert_ne).
    assert (L3 : forall r, r <> f -> sem s' r = sem s r).
    { intros r Hne. subst s'. unfold sem. cbn. by rewrite lookup_insert_ne. }
    assert (Hla : forall wj q qr qr', s_frames s !! q = Some qr -> s_frames s' !! q = Some qr' -> lastc wj q qr' ->
      lastc wj q qr /\ length (f_cells qr') = length (f_cells qr)).
    { intros wj q qr qr' Hq Hq' La. destruct (decide (q = f)) as [->|Hne].
      - simplify_eq. split; [|done]. destruct La as [?|(_ & m & st & k & H)]; [by left|done].
      - rewrite L2 in Hq' by done. by simplify_eq. }
    apply goal_end; [| |oks].
    - eapply (J_local s s' g1); try (by subst s'); [by eapply inv_stkl|..].
      + intros r Hrs. destruct (decide (r = f)) as [->|Hne]; [right|left; by rewrite <- L3].
        split.
        * intros m w0 a A. apply Hkc. refine (j_req _ _ _ HJ1 _ _ _ (KF f) _ (rq_res _ _ _ _ _ Hf Hk _) A). by rewrite Hr.
        * intros c m Ht Hc. destruct (tree_near g1 c f fr HJ1 Hf Z1 Z2 Ht) as [->|(_ & b & Hn)].
          -- apply Hkc. refine (j_req _ _ _ HJ1 _ _ _ (KF f) _ (rq_frame _ _ _ _ _ Hf) _). by apply (j_cod _ _ _ HJ1).
          -- apply Hrel. eapply excl_cur; [exact I0|exact Hx|].
             pose proof (j_near _ _ _ HJ1 _ _ _ _ Hn Hc) as X. destruct b; [by left|done].
      + intros q. subst s'. cbn. by destruct (s_workers s !! q).
      + intros q qr' Hq. destruct (decide (q = f)) as [->|Hne].
        * rewrite L1 in Hq. injection Hq as <-. exists fr. split_and!; [done| |done|by rewrite Hr].
          constructor; cbn; try done. by left.
        * rewrite L2 in Hq by done. exists qr'. split_and!; [done|apply fcompat_refl|done|by destruct (f_rp qr')].
      + intros q (qr & Hq). destruct (decide (q = f)) as [->|Hne]; [by eexists|]. exists qr. by rewrite L2.
      + intros j wj wj' q qr qr' Hj Hj' Hq Hq' La. assert (wj' = wj) as -> by (subst s'; cbn in Hj'; congruence). eauto.
    - eapply extra_local; [exact E|by subst s'|..].
      + intros q qr' Hq. destruct (decide (q = f)) as [->|Hne].
        * rewrite L1 in Hq. injection Hq as <-. by exists fr.
        * rewrite L2 in Hq by done. eauto.
      + intros j wj q qr' Hj Hq La. assert (Hj0 : s_workers s !! j = Some wj) by (by subst s').
        destruct (decide (q = f)) as [->|Hne].
        * destruct (Hla _ _ _ _ Hf Hq La). eauto 10.
        * assert (Hq0 := Hq). rewrite L2 in Hq0 by done. destruct (Hla _ _ _ _ Hq0 Hq La). eauto 10.
      + intros r Hrs. destruct (decide (r = f)) as [->|Hne].
        * split; [pose proof (live_lt nw G s I0 _ _ Hf); by subst s'|]. intros qr Hq. rewrite L1 in Hq. by injection Hq as <-.
        * rewrite L3 in Hrs by done. rewrite L2 by done. destruct (e_sem _ E _ Hrs). split; [by subst s'|done].
  Qed.
End end_.
