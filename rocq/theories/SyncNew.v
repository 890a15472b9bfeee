(** * Steps that create tasks, and the client's side. *)

From stdpp Require Import prelude gmap list relations.
From Coq Require Import NArith Lia.
From Verif Require Import RuntimeModel RuntimeSpec RuntimeInv RuntimeStep RuntimeStep3 SyncSpec SyncModel SyncViews
  SyncInv SyncTrans SyncAccess SyncStep SyncStep2 SyncMove SyncMove2 SyncEnd.
Local Open Scope N_scope.

(** ** What a list of actions adds *)

Lemma acs_vrun g tr l m w a :
  acs (vrun g tr) l m w a -> acs g l m w a \/ exists x, x ∈ tr /\ access x.2 = Some (l, w, a).
Proof.
  revert g. induction tr as [|x tr IH]; intros g H; [by left|]. cbn in H.
  destruct (IH _ H) as [[H1|(_ & H1)]|(y & H1 & H2)].
  - by left.
  - right. exists x. split; [by left|done].
  - right. exists y. split; [by right|done].
Qed.

Lemma gpa_vrun g t al c p b :
  gpa (vrun g (tag t al)) c p b <-> gpa g c p b \/ exists a, a ∈ al /\ is_birth a = Some (c, p, b).
Proof.
  revert g. induction al as [|x al IH]; intros g; cbn.
  - split; [by left|]. intros [H|(a & H & _)]; [done|]. by apply elem_of_nil in H.
  - unfold tag in IH. rewrite IH, vstep_gpa. split.
    + intros [[H|H]|(a & H1 & H2)]; [by left|..]; right; [exists x; split; [by left|done]|exists a; split; [by right|done]].
    + intros [H|(a & H1 & H2)]; [by left; left|]. apply elem_of_cons in H1 as [->|H1]; [left; by right|right; eauto].
Qed.

Lemma goal_pre' nb s s' g t a1 a2 :
  J nb s g -> Forall (okay nb s t) a1 ->
  (J nb s (vrun g (tag t a1)) -> goal s' (vrun g (tag t a1)) t a2) -> goal s' g t (a1 ++ a2).
Proof.
  intros HJ H Hg. destruct (run_okay _ _ _ _ _ H HJ) as (J1 & S1).
  destruct (Hg J1) as (J2 & S2 & HE). unfold goal, tag in *. rewrite fmap_app, vrun_app, all_safe_app. done.
Qed.

Lemma okay_birth nb s t e p b :
  is_birth (Note e) = Some (s_nextf s, p, b) -> p < s_nextf s -> nb <> None -> s_frames s !! s_nextf s = None ->
  okay nb s t (Note e).
Proof.
  intros Hb Hp Hn Hf g HJ. split; [by intros l w a m w' a' A|]. constructor; try done.
  intros c p' b' H. rewrite Hb in H. by injection H as <- <- <-.
Qed.

(** ** A child *)

Section child.
  Context (nw : nat) (G : ghost) (s s' : state) (I0 : inv nw G s) (E : extra s) (g0 g : views).
  Context (i : nat) (w w' : worker) (f : N) (fr fr' : frame) (kd : kind) (t0 : task).
  Context (HJ : J (Some (TW i)) s g0) (HX : ext s g0 g).
  Context (Hi : s_workers s !! i = Some w) (Hpc : w_pc w = PRun f) (Hf : s_frames s !! f = Some fr)
    (Hrun : exists t, f_rp fr = RRun t).
  Context (Hnf : s_nextf s < s_nextf s') (Hns : s_nexts s' = s_nexts s) (Hsem : forall r, sem s' r = sem s r).
  Context (HA : forall m b a, ~ acs g0 (LStk (s_nexts s)) m b a).
  Context (HG : forall p b, gpa g0 (s_nextf s) p b <-> p = f /\ b = kindb kd).
  Context (HG2 : forall c p b, gpa g0 c p b -> c <= s_nextf s).
  Context (Hstk : forall x, x <> w_stk w -> stk s' x = stk s x).
  Context (Hfs : s_frames s' = <[s_nextf s := new_frame kd t0 (w_stk w)]> (<[f := fr']> (s_frames s))).
  Context (Hkd : cellof kd = Some (f, length (f_cells fr))).
  Context (Hk : f_kind fr' = f_kind fr) (Hjn : f_joins fr' = f_joins fr) (Hef : f_eflag fr' = f_eflag fr)
    (Hlen : (length (f_cells fr) <= length (f_cells fr'))%nat).
  Context (Hw : s_workers s' = <[i := w']> (s_workers s)).
  Context (Hpc' : w_pc w' = PRun (s_nextf s)) (Hb' : w_inbox w' = w_inbox w) (Hc' : w_batch w' = w_batch w)
    (Hs' : w_stk w' = w_stk w).
  Context (Hcase : (kindb kd = true /\ (exists x y k, f_rp fr' = RCall x y k) /\ w_deque w' = w_deque w) \/
    (kindb kd = false /\ (exists x y k z, f_rp fr' = RFork x y k z) /\ w_deque w' = f :: w_deque w /\
     forall m, cur g0 (TW i) m -> rel g (TW i) m /\ msg g (OBot i) m)).

  Local Notation c := (s_nextf s).

  Local Lemma n_self : s_workers s' !! i = Some w'.
  Proof. rewrite Hw. apply list_lookup_insert. by eapply lookup_lt_Some. Qed.
  Local Lemma n_oth j : j <> i -> s_workers s' !! j = s_workers s !! j.
  Proof. intros H. rewrite Hw. by apply list_lookup_insert_ne. Qed.
  Local Lemma n_dead : s_frames s !! c = None.
  Proof. apply (i_fresh _ _ _ I0). lia. Qed.
  Local Lemma n_lt q qr : s_frames s !! q = Some qr -> q < c.
  Proof. apply (live_lt nw G s I0). Qed.
  Local Lemma n_c : s_frames s' !! c = Some (new_frame kd t0 (w_stk w)).
  Proof. rewrite Hfs. apply lookup_insert. Qed.
  Local Lemma n_f : s_frames s' !! f = Some fr'.
  Proof. rewrite Hfs. pose proof (n_lt _ _ Hf). rewrite lookup_insert_ne by lia. apply lookup_insert. Qed.
  Local Lemma n_q q : q <> f -> q <> c -> s_frames s' !! q = s_frames s !! q.
  Proof. intros H1 H2. rewrite Hfs. rewrite lookup_insert_ne by done. by rewrite lookup_insert_ne. Qed.
  Local Lemma n_live q : live s q -> live s' q.
  Proof.
    intros (qr & H). pose proof (n_lt _ _ H). destruct (decide (q = f)) as [->|Hne]; [exists fr'; apply n_f|].
    exists qr. rewrite n_q by lia. done.
  Qed.
  Local Lemma n_back q qr' : s_frames s' !! q = Some qr' ->
    (q = c /\ qr' = new_frame kd t0 (w_stk w)) \/ (q = f /\ qr' = fr') \/ (q <> f /\ q <> c /\ s_frames s !! q = Some qr').
  Proof.
    intros H. destruct (decide (q = c)) as [->|Hqc]; [left; rewrite n_c in H; by injection H as <-|].
    destruct (decide (q = f)) as [->|Hqf]; [right; left; rewrite n_f in H; by injection H as <-|].
    right; right. rewrite n_q in H by done. done.
  Qed.
  Local Lemma n_kind q qr : s_frames s !! q = Some qr -> exists qr', s_frames s' !! q = Some qr' /\ f_kind qr' = f_kind qr.
  Proof.
    intros H. pose proof (n_lt _ _ H). destruct (decide (q = f)) as [->|Hne].
    - exists fr'. split; [apply n_f|]. rewrite Hk. congruence.
    - exists qr. rewrite n_q by lia. done.
  Qed.
  Local Lemma n_know m : cur g (TW i) m -> know s' g c m.
  Proof. intros H. eapply kn_wrk; [exact n_self|]. left. split; [|done]. rewrite Hpc'. by left. Qed.
  Local Lemma n_held m : know s g0 f m -> cur g0 (TW i) m.
  Proof. intros H. eapply held_cur; [exact I0| |exact H]. eapply held_run; [done|by rewrite Hpc]. Qed.
  Local Lemma n_cur t m : cur g0 t m -> cur g t m.
  Proof. apply HX. Qed.

  Lemma n_TK q m : know s g0 q m -> live s' q -> know s' g q m.
  Proof.
    pose proof (x_grow _ _ _ HX) as GR. revert q m. apply know_lift.
    - intros j wj q m Hj Hkn _. destruct (decide (j = i)) as [->|Hne].
      + simplify_eq. destruct Hkn as [(H & Hm)|[(H & Hm1 & Hm2)|(H & Hm)]].
        * rewrite Hpc in H. apply elem_of_app in H as [H|H].
          -- apply elem_of_list_singleton in H as ->. destruct Hcase as [(Hkb & (x & y & k & Hr) & _)|(_ & _ & Hd & HB)].
             ++ assert (exists j st, kd = KCall f j st) as (j & st & Hkd').
                { clear -Hkd Hkb. destruct kd; try done. injection Hkd as -> ->. eauto. }
                eapply (kn_call s' g f fr' x y k c); [apply n_f|done|apply n_c|exact Hkd'|].
                apply n_know. by apply n_cur.
             ++ eapply kn_wrk; [exact n_self|]. right; left. rewrite Hd. split; [by left|]. by apply HB.
          -- eapply kn_wrk; [exact n_self|]. left. split; [|by apply n_cur]. apply elem_of_app. right. by rewrite Hc'.
        * eapply kn_wrk; [exact n_self|]. right; left. split; [|split; [by apply GR|by apply GR]].
          destruct Hcase as [(_ & _ & ->)|(_ & _ & -> & _)]; [done|by right].
        * eapply kn_wrk; [exact n_self|]. right; right. rewrite Hb'. split; [done|by apply GR].
      + eapply kn_wrk; [by rewrite n_oth|]. by eapply wknow_grow.
    - intros q qr k m Hq Hr Hm _. pose proof (n_lt _ _ Hq). destruct Hrun as (t & Ht).
      assert (q <> f) by (intros ->; congruence).
      eapply kn_join; [rewrite n_q by lia; done|done|]. eapply g_join; eauto.
    - intros q qr x y k d frd j st Hq Hr Hd Hkk _. left. pose proof (n_lt _ _ Hq). destruct Hrun as (t & Ht).
      assert (q <> f) by (intros ->; congruence).
      destruct (n_kind _ _ Hd) as (frd' & H1 & H2). exists qr, x, y, k, frd'. split_and!; [rewrite n_q by lia; done|done|done|done].
  Qed.

  Lemma n_TP q m : pend s g0 q m -> live s' q -> pend s' g q m.
  Proof.
    pose proof (x_grow _ _ _ HX) as GR. intros Hp Hlv. revert Hp. apply pend_lift; [apply n_TK|done|..].
    - intros qr Hq Hj Hm. right; left. split; [eapply g_join; eauto|]. pose proof (n_lt _ _ Hq).
      destruct (decide (q = f)) as [->|Hne].
      + exists fr'. split; [apply n_f|]. rewrite Hjn. congruence.
      + exists qr. rewrite n_q by lia. done.
    - intros d frd j st Hd Hkk. left. by apply n_kind.
    - intros j wj Hj Hfi Hc. destruct (decide (j = i)) as [->|Hne].
      + simplify_eq. unfold final_of in Hfi. by rewrite Hpc in Hfi.
      + right; right; right. exists j, wj. rewrite n_oth by done. split_and!; [done|done|by apply n_cur].
  Qed.

  Local Lemma n_near d a b : near s' g0 d a b -> near s g0 d a b.
  Proof.
    assert (DN : forall q, s_frames s' !! q = None -> s_frames s !! q = None).
    { intros q H. destruct (s_frames s !! q) as [qr|] eqn:Hq; [|done].
      destruct (n_kind _ _ Hq) as (qr' & H' & _). congruence. }
    induction 1 as [d p b qr H1 H2 H3|d p b a b' H1 H2 H3 Hn IH].
    - destruct (j_gpa _ _ _ HJ _ _ _ H2) as (Hp & _).
      destruct (n_back _ _ H3) as [(-> & _)|[(-> & ->)|(_ & _ & H0)]]; [lia|..]; eapply near_one; eauto.
    - eapply near_step; eauto.
  Qed.

  (* the workers that look at the last child *)
  Local Lemma n_lastc j wj' p qr' : s_workers s' !! j = Some wj' -> s_frames s' !! p = Some qr' -> lastc wj' p qr' ->
    p <> f /\ p <> c /\ s_workers s !! j = Some wj' /\ s_frames s !! p = Some qr'.
  Proof.
    intros Hj Hq La. assert (Htok : j <> i -> s_workers s !! j = Some wj' -> wtok f wj' = 0).
    { intros Hne Hj0. eapply (tok_other nw G s f fr i j w wj'); [done|done|done|done|done|].
      unfold wtok. rewrite Hpc. cbn. rewrite eqn_refl. lia. }
    assert (Htc : forall k wk, s_workers s !! k = Some wk -> wtok c wk = 0 /\ wsub c wk = 0).
    { intros k wk Hk0. destruct (i_dead _ _ _ I0 c n_dead) as (_ & _ & D1 & D2).
      pose proof (sumw_ge (wtok c) _ _ _ Hk0). pose proof (sumw_ge (wsub c) _ _ _ Hk0). lia. }
    destruct (decide (j = i)) as [->|Hne].
    - exfalso. rewrite n_self in Hj. injection Hj as <-. destruct La as [(H & _)|(H & m & st & k & H2)]; [congruence|].
      rewrite Hpc' in H. injection H as <-. rewrite n_c in Hq. by injection Hq as <-.
    - rewrite n_oth in Hj by done. specialize (Htok Hne Hj). destruct (Htc _ _ Hj) as (T1 & T2).
      destruct (n_back _ _ Hq) as [(-> & ->)|[(-> & ->)|(H1 & H2 & H3)]]; [exfalso..|done].
      + destruct La as [(H & _)|(H & _)].
        * unfold wsub in T2. rewrite H, eqn_refl in T2. lia.
        * unfold wtok in T1. rewrite H in T1. cbn in T1. rewrite eqn_refl in T1. lia.
      + destruct La as [(H & d & Hd)|(H & _)].
        * unfold wtok in Htok. rewrite Hd in Htok. cbn in Htok. rewrite eqn_refl in Htok. lia.
        * unfold wtok in Htok. rewrite H in Htok. cbn in Htok. rewrite eqn_refl in Htok. lia.
  Qed.

  Local Lemma n_par : par kd = Some f.
  Proof. by rewrite par_cell, Hkd. Qed.

  Lemma J_child : J None s' g /\ extra s'.
  Proof.
    split.
    - eapply (J_trans (Some (TW i)) s g0 s' g); [done|done|lia|lia|..].
      + right. split_and!; [done|intros; by eapply HA in H|]. intros d p b H. apply HG2 in H. lia.
      + intros q qr' Hq. destruct (n_back _ _ Hq) as [(-> & ->)|[(-> & ->)|(H1 & H2 & H3)]].
        * right. constructor; cbn.
          -- lia.
          -- intros t m [= <-] H. by apply n_know, n_cur.
          -- done.
          -- intros p m Hp H. rewrite n_par in Hp. injection Hp as <-. by apply n_know, n_cur, n_held.
          -- intros p j H. rewrite Hkd in H. injection H as <- <-. eauto.
          -- intros p frp' Hp Hfp He. rewrite n_par in Hp. injection Hp as <-. rewrite n_f in Hfp. injection Hfp as <-.
             exists fr. split; [done|congruence].
          -- intros p b. rewrite (x_gpa _ _ _ HX), HG, n_par. split; [intros (-> & ->); done|intros ([= <-] & <-); done].
        * left. exists fr. split; [done|]. destruct Hrun as (t & Ht). constructor; [done|done|intros ?; left; congruence| |by rewrite Ht].
          intros e He. destruct Hcase as [(_ & (? & ? & ? & ?) & _)|(_ & (? & ? & ? & ? & ?) & _)]; congruence.
        * left. exists qr'. split; [done|apply fcompat_refl].
      + apply n_TK.
      + apply n_TP.
      + intros j wj' p Hj Hfi. left. destruct (decide (j = i)) as [->|Hne].
        * rewrite n_self in Hj. injection Hj as <-. unfold final_of in Hfi. by rewrite Hpc' in Hfi.
        * rewrite n_oth in Hj by done. eauto.
      + intros j wj' p qr' n m b a Hj Hq La Hn A. destruct (n_lastc _ _ _ _ Hj Hq La) as (H1 & H2 & H3 & H4).
        apply n_cur. refine (j_req _ _ _ HJ _ _ _ (KT (TW j)) _ (rq_last _ _ _ _ _ _ _ _ H3 H4 La Hn) A).
      + intros j wj' m b a Hj He A. apply n_cur. destruct (decide (j = i)) as [->|Hne].
        * rewrite n_self in Hj. injection Hj as <-. rewrite Hs' in A.
          refine (j_req _ _ _ HJ _ _ _ (KT (TW i)) _ (rq_stkw _ _ _ _ _ Hi _) A). unfold eff. by rewrite Hpc.
        * rewrite n_oth in Hj by done. refine (j_req _ _ _ HJ _ _ _ (KT (TW j)) _ (rq_stkw _ _ _ _ _ Hj He) A).
      + intros x q l' m b a Hq Hd A. destruct (decide (x = w_stk w)) as [->|Hne].
        { exfalso. apply (Hd i w' n_self); [unfold eff; by rewrite Hpc'|done]. }
        rewrite Hstk in Hq by done.
        assert (Hd0 : detached s x).
        { intros j wj Hj He. destruct (decide (j = i)) as [->|Hji]; [congruence|]. apply (Hd j wj); [by rewrite n_oth|done]. }
        apply n_TP.
        * apply (j_req _ _ _ HJ _ _ _ (KP q) _ (rq_stkd _ _ _ _ _ _ Hq Hd0) A).
        * apply n_live. by eapply stk_live.
      + intros r Hr. left. by rewrite <- Hsem.
      + intros d a b m Hn Hc0. apply n_near in Hn.
        pose proof (j_near _ _ _ HJ _ _ _ _ Hn Hc0) as X. pose proof (near_live _ _ _ _ _ Hn) as L. apply n_live in L.
        destruct b; [by apply n_TK|by apply n_TP].
    - eapply (extra_trans s); [exact E|lia|..].
      + intros d qr' Hq. destruct (n_back _ _ Hq) as [(-> & ->)|[(-> & ->)|(H1 & H2 & H3)]].
        * right. split; [done|]. cbn. intros d frd x Hd Hx Hx'. rewrite Hkd in Hx. injection Hx as <-.
          destruct (i_kid _ _ _ I0 d (f_kind frd) (f_stk frd) f fr) as (K & _); [by apply shape_lookup| |done|].
          -- by rewrite par_cell, Hx'.
          -- unfold kid_ok in K. cbn in K. destruct (f_kind frd); try done; cbn in Hx'; simplify_eq; lia.
        * left. eauto.
        * left. eauto.
      + intros j wj' p qr' n Hj Hq La Hn d frd' Hd. destruct (n_lastc _ _ _ _ Hj Hq La) as (H1 & H2 & H3 & H4).
        destruct (n_back _ _ Hd) as [(-> & ->)|[(-> & ->)|(_ & _ & H5)]].
        * cbn. rewrite Hkd. congruence.
        * rewrite Hk. by eapply (e_quiet _ E _ _ _ _ _ H3 H4 La Hn).
        * by eapply (e_quiet _ E _ _ _ _ _ H3 H4 La Hn).
      + intros r Hr. rewrite Hsem in Hr. destruct (e_sem _ E _ Hr) as (H1 & H2). split; [lia|].
        intros qr' Hq. destruct (n_back _ _ Hq) as [(-> & ->)|[(-> & ->)|(_ & _ & H5)]]; [lia| |auto].
        specialize (H2 _ Hf). destruct Hrun. congruence.
  Qed.
End child.

Lemma okay_load nb s t o q : free (LAt o) -> okay nb s t (Load o q).
Proof. intros Hl. by eapply okay_free. Qed.

Lemma free_bot i : free (LAt (OBot i)).
Proof. exists i. auto. Qed.
Lemma free_top i : free (LAt (OTop i)).
Proof. exists i. auto. Qed.
Lemma free_inbox i : free (LAt (OInbox i)).
Proof. exists i. auto. Qed.

Section spawn.
  Context (nw : nat) (G : ghost) (s : state) (I0 : inv nw G s) (E : extra s).
  Context (i : nat) (w : worker) (f : N) (fr : frame).
  Context (Hi : s_workers s !! i = Some w) (Hpc : w_pc w = PRun f) (Hf : s_frames s !! f = Some fr).
  Context (Hrun : exists t, f_rp fr = RRun t).

  Local Notation c := (s_nextf s).

  Definition birth_acts (e : event) : list action :=
    Note e :: Code f :: Write (LCell f (length (f_cells fr))) ::
    create_acts (w_stk w) c ++ [Write (LHdr c); Write (LFrame f)].

  Lemma ok_birth e b : is_birth (Note e) = Some (c, f, b) -> Forall (okay (Some (TW i)) s (TW i)) (birth_acts e).
  Proof.
    intros He. assert (Hh : held s i f) by (eapply held_run; [done|by rewrite Hpc]).
    assert (Hns : f_rp fr <> RSignalled) by (destruct Hrun; congruence).
    pose proof (live_lt nw G s I0 _ _ Hf) as Hlt.
    assert (HN : forall l, floc l = Some c -> l <> LAt (OSem c) -> okay (Some (TW i)) s (TW i) (Write l)).
    { intros l Hl Hne. eapply okay_new; [exact I0|exact E|done|done|done|done|done]. }
    unfold birth_acts, create_acts. cbn [app]. oks.
    - eapply okay_birth; [exact He|done|done|]. apply (i_fresh _ _ _ I0). lia.
    - by eapply ok_code.
    - by eapply okay_newcell.
    - eapply okay_stk; [done|done|unfold eff; by rewrite Hpc|done].
    - by apply HN.
    - by apply HN.
    - by apply HN.
    - by apply HN.
    - by apply HN.
    - eapply okay_frame; [done|done|done|done|done].
  Qed.

  (* what the actions of a creation have touched *)
  Lemma birth_facts g e b al :
    J None s g -> is_birth (Note e) = Some (c, f, b) ->
    (forall a, a ∈ al -> is_birth a = None /\ forall x w0 b0, access a <> Some (LStk x, w0, b0)) ->
    let g0 := vrun g (tag (TW i) (birth_acts e ++ al)) in
    (forall m b0 a, ~ acs g0 (LStk (s_nexts s)) m b0 a) /\
    (forall p b0, gpa g0 c p b0 <-> p = f /\ b0 = b) /\
    (forall d p b0, gpa g0 d p b0 -> d <= c).
  Proof.
    intros HJ He Hal g0.
    assert (HB : forall d p b0, gpa g0 d p b0 <-> gpa g d p b0 \/ (d = c /\ p = f /\ b0 = b)).
    { intros d p b0. unfold g0. rewrite gpa_vrun. split.
      - intros [H|(a & H1 & H2)]; [by left|]. right. apply elem_of_app in H1 as [H1|H1].
        + unfold birth_acts, create_acts in H1. cbn [app] in H1. rewrite !elem_of_cons, elem_of_nil in H1.
          repeat (destruct H1 as [->|H1]; [try done|]); [|done]. rewrite He in H2. by injection H2 as <- <- <-.
        + destruct (Hal _ H1) as (H3 & _). congruence.
      - intros [H|(-> & -> & ->)]; [by left|]. right. exists (Note e). split; [by left|done]. }
    assert (HG : forall d p b0, gpa g d p b0 -> d < c).
    { intros d p b0 H. by destruct (j_gpa _ _ _ HJ _ _ _ H) as (_ & [?|?] & _). }
    split_and!.
    - intros m b0 a A. unfold g0 in A. apply acs_vrun in A as [A|(x & Hx & A)].
      + destruct (j_news _ _ _ HJ _ _ _ _ A) as (_ & t & ? & _); [lia|done].
      + unfold tag in Hx. apply elem_of_list_fmap in Hx as (x' & -> & Hx). cbn in A.
        apply elem_of_app in Hx as [H1|H1].
        * unfold birth_acts, create_acts in H1. cbn [app] in H1. rewrite !elem_of_cons, elem_of_nil in H1.
          repeat (destruct H1 as [->|H1]; [try done|]); [|done]. cbn in A. injection A as A _ _.
          destruct (i_wrk _ _ _ I0 _ _ Hi) as (_ & ?). lia.
        * destruct (Hal _ H1) as (_ & H3). by eapply H3.
    - intros p b0. rewrite HB. split; [intros [H|(_ & -> & ->)]; [apply HG in H; lia|done]|intros (-> & ->); by right].
    - intros d p b0 H. apply HB in H as [H|(-> & _)]; [apply HG in H; lia|done].
  Qed.

  Lemma s_call g m st t0 k s' :
    J None s g ->
    s' = put_worker i (set_pc (PRun c) w) (spawn_child w (KCall f (length (f_cells fr)) st) t0
           (put_frame f (set_cells (f_cells fr ++ [CUnset]) (set_rp (RCall m st k) fr)) s)) ->
    goal s' g (TW i) (Note (EvCall f c st t0) :: [Code f; Write (LCell f (length (f_cells fr)))] ++ create_acts (w_stk w) c ++
      [Write (LHdr c); Write (LFrame f); Read (LHdr c)]).
  Proof.
    intros HJ Es. set (e := EvCall f c st t0).
    replace (Note e :: _) with ((birth_acts e ++ [Read (LHdr c)]) ++ []).
    2: { rewrite app_nil_r. unfold birth_acts. cbn. done. }
    assert (He : is_birth (Note e) = Some (c, f, true)) by done.
    apply (goal_pre' (Some (TW i)) s); [by apply J_nb| |].
    { apply Forall_app. split; [by eapply ok_birth|]. oks. eapply okay_new; [exact I0|exact E|done|done|done|done|done]. }
    set (g0 := vrun _ _). intros HJ0.
    destruct (birth_facts g e true [Read (LHdr c)] HJ He) as (F1 & F2 & F3).
    { intros a Ha. apply elem_of_list_singleton in Ha as ->. done. }
    fold g0 in F1, F2, F3.
    destruct (J_child nw G s s' I0 E g0 g0 i w (set_pc (PRun c) w) f fr
      (set_cells (f_cells fr ++ [CUnset]) (set_rp (RCall m st k) fr)) (KCall f (length (f_cells fr)) st) t0) as (X1 & X2);
      try (by subst s'); try done.
    - by eapply ext_refl.
    - subst s'. cbn. lia.
    - intros x Hne. subst s'. change (stk (put_worker _ _ (spawn_child _ _ _ ?z)) x) with (stk (put_stack (w_stk w) (c :: stk z (w_stk w)) z) x).
      rewrite stk_put, decide_False by done. done.
    - cbn. rewrite app_length. lia.
    - left. split_and!; [done|cbn; eauto|done].
  Qed.

  Lemma s_fork g m st t0 k n s' G' :
    J None s g -> inv nw G' s' ->
    s' = put_worker i (set_pc (PRun c) (set_deque (f :: w_deque w) w)) (spawn_child w (KFork f (length (f_cells fr)) st) t0
           (put_frame f (set_cells (f_cells fr ++ [CUnset]) (set_rp (RFork m st k n) fr)) s)) ->
    goal s' g (TW i) (Note (EvFork f c st t0) :: [Code f; Write (LCell f (length (f_cells fr)))] ++ create_acts (w_stk w) c ++
      [Write (LHdr c); Write (LFrame f)] ++ push_acts i ++ [Read (LHdr c)]).
  Proof.
    intros HJ I' Es. set (e := EvFork f c st t0). set (pre := [Load (OBot i) false; Load (OTop i) true; Fence false true]).
    set (w' := set_pc (PRun c) (set_deque (f :: w_deque w) w)) in *.
    replace (Note e :: _) with ((birth_acts e ++ pre) ++ [Store (OBot i) false; Read (LHdr c)]).
    2: { unfold birth_acts. cbn. done. }
    assert (He : is_birth (Note e) = Some (c, f, false)) by done.
    apply (goal_pre' (Some (TW i)) s); [by apply J_nb| |].
    { apply Forall_app. split; [by eapply ok_birth|]. unfold pre. oks.
      - apply okay_load, free_bot.
      - apply okay_load, free_top.
      - by apply okay_quiet. }
    set (g0 := vrun _ _). intros HJ0.
    destruct (birth_facts g e false pre HJ He) as (F1 & F2 & F3).
    { intros a Ha. unfold pre in Ha. rewrite !elem_of_cons, elem_of_nil in Ha.
      destruct Ha as [->|[->|[->|[]]]]; done. }
    fold g0 in F1, F2, F3.
    assert (Hrel : forall m, cur g0 (TW i) m -> rel g0 (TW i) m).
    { intros m0. unfold g0, pre, tag. rewrite fmap_app, vrun_app. cbn [fmap list_fmap vrun]. apply fence_rel. }
    clearbody g0.
    destruct (okay_free (Some (TW i)) s (TW i) (Store (OBot i) false) (LAt (OBot i)) true eq_refl (free_bot i)) with (g := g0) as (S1 & P1);
      [by exists i|done|].
    set (g1 := vstep g0 (TW i, Store (OBot i) false)) in *.
    pose proof (J_step _ _ _ _ _ HJ0 P1) as HJ1. fold g1 in HJ1.
    assert (HX : ext s g0 g1).
    { constructor.
      - apply grow_step; [apply HJ0|by exists i].
      - apply HJ1.
      - intros l m0 b a [H|(_ & H)]; [by left|]. cbn in H. injection H as <- _ _. right. apply free_bot.
      - intros l m0 b a H. by left.
      - apply HJ1.
      - intros q m0 [H|(_ & H)]; done.
      - intros d p b. split; [intros [H|H]; done|by left]. }
    assert (Hi' : s_workers s' !! i = Some w').
    { subst s'. cbn. apply list_lookup_insert. by eapply lookup_lt_Some. }
    destruct (J_child nw G s s' I0 E g0 g1 i w w' f fr
      (set_cells (f_cells fr ++ [CUnset]) (set_rp (RFork m st k n) fr)) (KFork f (length (f_cells fr)) st) t0) as (X1 & X2);
      try (by subst s'); try done.
    - subst s'. cbn. lia.
    - intros x Hne. subst s'. change (stk (put_worker _ _ (spawn_child _ _ _ ?z)) x) with (stk (put_stack (w_stk w) (c :: stk z (w_stk w)) z) x).
      rewrite stk_put, decide_False by done. done.
    - cbn. rewrite app_length. lia.
    - right. split_and!; [done|cbn; eauto|done|]. intros m0 Hm. apply Hrel in Hm. split; [by left|].
      cbn. unfold msg'. cbn. rewrite decide_True by done. by right.
    - assert (Hh' : held s' i c) by (eapply held_run; [exact Hi'|done]).
      destruct (goal_end s' g1 (TW i) [Read (LHdr c)]) as (Y1 & Y2 & Y3); [done|done| |].
      + oks. eapply okay_share_held; [exact I'|exact Hh'|done|by left|done].
      + split_and!; [exact Y1|split; [exact S1|exact Y2]|done].
  Qed.
End spawn.

(** ** A new root *)

Section root.
  Context (nw : nat) (G : ghost) (s : state) (I0 : inv nw G s) (E : extra s).
  Context (d : nat) (wd : worker) (t0 : task) (Hd : s_workers s !! d = Some wd).
  Local Notation c := (s_nextf s).
  Local Notation x := (s_nexts s).

  Let w' := set_inbox (w_inbox wd ++ [c]) wd.
  Let s' := put_worker d w' (put_frame c (new_frame KRoot t0 x) (put_stack x [c] (bump_f (bump_s s)))).

  Local Lemma r_self : s_workers s' !! d = Some w'.
  Proof. cbn. apply list_lookup_insert. by eapply lookup_lt_Some. Qed.
  Local Lemma r_oth j : j <> d -> s_workers s' !! j = s_workers s !! j.
  Proof. intros H. cbn. by apply list_lookup_insert_ne. Qed.
  Local Lemma r_lt q qr : s_frames s !! q = Some qr -> q < c.
  Proof. apply (live_lt nw G s I0). Qed.
  Local Lemma r_c : s_frames s' !! c = Some (new_frame KRoot t0 x).
  Proof. apply lookup_insert. Qed.
  Local Lemma r_q q : q <> c -> s_frames s' !! q = s_frames s !! q.
  Proof. intros H1. cbn. by rewrite lookup_insert_ne. Qed.
  Local Lemma r_fwd q qr : s_frames s !! q = Some qr -> s_frames s' !! q = Some qr.
  Proof. intros H. pose proof (r_lt _ _ H). rewrite r_q by lia. done. Qed.
  Local Lemma r_live q : live s q -> live s' q.
  Proof. intros (qr & H). exists qr. by apply r_fwd. Qed.
  Local Lemma r_back q qr' : s_frames s' !! q = Some qr' ->
    (q = c /\ qr' = new_frame KRoot t0 x) \/ (q <> c /\ s_frames s !! q = Some qr').
  Proof.
    intros H. destruct (decide (q = c)) as [->|Hqc]; [left; rewrite r_c in H; by injection H as <-|].
    right. rewrite r_q in H by done. done.
  Qed.
  Local Lemma r_wrk j wj' : s_workers s' !! j = Some wj' -> exists wj, s_workers s !! j = Some wj /\
    w_pc wj' = w_pc wj /\ w_deque wj' = w_deque wj /\ w_stk wj' = w_stk wj.
  Proof.
    intros H. destruct (decide (j = d)) as [->|Hne].
    - rewrite r_self in H. injection H as <-. exists wd. done.
    - rewrite r_oth in H by done. eauto.
  Qed.
  Local Lemma r_know g q m : know s g q m -> live s' q -> know s' g q m.
  Proof.
    revert q m. apply know_lift.
    - intros j wj q m Hj Hk _. destruct (decide (j = d)) as [->|Hne].
      + simplify_eq. eapply kn_wrk; [exact r_self|]. destruct Hk as [H|[H|(H & Hm)]]; [by left|by right; left|].
        right; right. split; [|done]. cbn. apply elem_of_app. by left.
      + eapply kn_wrk; [by rewrite r_oth|done].
    - intros q qr k m Hq Hr Hm _. eapply kn_join; [by apply r_fwd|done|done].
    - intros q qr a b k e fre j st Hq Hr He Hk _. left. exists qr, a, b, k, fre. split_and!; [by apply r_fwd|done|by apply r_fwd|done].
  Qed.
  Local Lemma r_pend g q m : pend s g q m -> live s' q -> pend s' g q m.
  Proof.
    intros Hp Hl. revert Hp. apply pend_lift; [apply r_know|done|..].
    - intros qr Hq Hj Hm. right; left. split; [done|]. exists qr. split; [by apply r_fwd|done].
    - intros e fre j st He Hk. left. exists fre. split; [by apply r_fwd|done].
    - intros j wj Hj Hf Hc. right; right; right. destruct (decide (j = d)) as [->|Hne].
      + simplify_eq. exists d, w'. split_and!; [exact r_self|done|done].
      + exists j, wj. by rewrite r_oth.
  Qed.
  Local Lemma r_lastc j wj' p qr' : s_workers s' !! j = Some wj' -> s_frames s' !! p = Some qr' -> lastc wj' p qr' ->
    exists wj, s_workers s !! j = Some wj /\ s_frames s !! p = Some qr' /\ lastc wj p qr'.
  Proof.
    intros Hj Hq La. destruct (r_wrk _ _ Hj) as (wj & Hj0 & E1 & E2 & _). exists wj. split; [done|].
    assert (La0 : lastc wj p qr') by (unfold lastc in *; by rewrite E1, E2 in La). split; [|done].
    destruct (r_back _ _ Hq) as [(-> & ->)|(_ & H)]; [exfalso|done].
    destruct (i_dead _ _ _ I0 c) as (_ & _ & D1 & D2); [apply (i_fresh _ _ _ I0); lia|].
    assert (T1 : wtok c wj = 0) by (pose proof (sumw_ge (wtok c) _ _ _ Hj0); lia).
    assert (T2 : wsub c wj = 0) by (pose proof (sumw_ge (wsub c) _ _ _ Hj0); lia).
    destruct La0 as [(H & _)|(H & _)].
    - unfold wsub in T2. rewrite H, eqn_refl in T2. lia.
    - unfold wtok in T1. rewrite H in T1. cbn in T1. rewrite eqn_refl in T1. lia.
  Qed.

  Lemma s_spawn g :
    J None s g -> goal s' g (TX c) (Note (EvSpawn c t0) :: spawn_acts d s).
  Proof.
    intros HJ. unfold spawn_acts, create_acts, submit_acts. cbn [app].
    rewrite <- (app_nil_r (_ :: _)). apply (goal_pre' (Some (TX c)) s); [by apply J_nb| |].
    { assert (HN : forall l, floc l = Some c -> okay (Some (TX c)) s (TX c) (Write l)).
      { intros l Hl. eapply okay_new; [exact I0|exact E|done|done|done|done|done]. }
      oks; try (by apply HN).
      - by apply okay_quiet.
      - by eapply okay_newstk.
      - apply okay_load, free_inbox.
      - eapply okay_free; [done|apply free_inbox|done]. }
    set (g0 := vrun _ _). intros HJ0.
    assert (Hmsg : forall m, cur g0 (TX c) m -> msg g0 (OInbox d) m).
    { intros m. unfold g0, tag. cbn [fmap list_fmap vrun]. apply rmw_rel. }
    assert (HG : forall e p b, gpa g0 e p b -> gpa g e p b).
    { intros e p b H. unfold g0 in H. apply gpa_vrun in H as [H|(a & H1 & H2)]; [done|].
      rewrite !elem_of_cons, elem_of_nil in H1. by repeat (destruct H1 as [->|H1]; [try done|]). }
    assert (HG2 : forall e p b, gpa g0 e p b -> e < c).
    { intros e p b H. apply HG in H. by destruct (j_gpa _ _ _ HJ _ _ _ H) as (_ & [?|?] & _). }
    clearbody g0.
    assert (Hkn : forall m, cur g0 (TX c) m -> know s' g0 c m).
    { intros m H. eapply kn_wrk; [exact r_self|]. right; right. split; [|by apply Hmsg]. cbn. apply elem_of_app. right. by left. }
    assert (Hstk : forall y, stk s' y = if decide (y = x) then [c] else stk s y).
    { intros y. change (stk s' y) with (stk (put_stack x [c] s) y). apply stk_put. }
    apply goal_end; [| |oks].
    - eapply (J_trans (Some (TX c)) s g0 s' g0); [done|by eapply ext_refl|cbn; lia|cbn; lia|..].
      + right. cbn. split_and!; [intros; lia|intros; lia|]. intros e p b H. apply HG2 in H. lia.
      + intros q qr' Hq. destruct (r_back _ _ Hq) as [(-> & ->)|(H1 & H3)].
        * right. constructor; cbn; try done.
          -- intros t m [= <-] H. auto.
          -- intros p b. split; [intros H; apply HG2 in H; lia|by intros (? & _)].
        * left. exists qr'. split; [done|apply fcompat_refl].
      + apply r_know.
      + apply r_pend.
      + intros j wj' p Hj Hfi. left. destruct (r_wrk _ _ Hj) as (wj & Hj0 & E1 & _). exists wj. split; [done|].
        unfold final_of in *. by rewrite <- E1.
      + intros j wj' p qr' n m b a Hj Hq La Hn A. destruct (r_lastc _ _ _ _ Hj Hq La) as (wj & H3 & H4 & La0).
        refine (j_req _ _ _ HJ0 _ _ _ (KT (TW j)) _ (rq_last _ _ _ _ _ _ _ _ H3 H4 La0 Hn) A).
      + intros j wj' m b a Hj He A. destruct (r_wrk _ _ Hj) as (wj & Hj0 & E1 & _ & E3). rewrite E3 in A.
        refine (j_req _ _ _ HJ0 _ _ _ (KT (TW j)) _ (rq_stkw _ _ _ _ _ Hj0 _) A). unfold eff in *. by rewrite E1 in He.
      + intros y q l' m b a Hq Hde A. rewrite Hstk in Hq. case_decide as D0.
        * subst y. injection Hq as <- <-. left. destruct (j_news _ _ _ HJ0 _ _ _ _ A) as (_ & t & [= <-] & Hc); [lia|]. auto.
        * assert (Hd0 : detached s y).
          { intros j wj Hj He. destruct (decide (j = d)) as [->|Hne].
            - simplify_eq. by apply (Hde d w' r_self).
            - apply (Hde j wj); [by rewrite r_oth|done]. }
          apply r_pend.
          -- apply (j_req _ _ _ HJ0 _ _ _ (KP q) _ (rq_stkd _ _ _ _ _ _ Hq Hd0) A).
          -- apply r_live. by eapply stk_live.
      + intros r Hr. by left.
      + assert (DN : forall q, s_frames s' !! q = None -> s_frames s !! q = None).
        { intros q H. destruct (s_frames s !! q) as [qr|] eqn:Hq; [|done]. apply r_fwd in Hq. congruence. }
        assert (Hnear : forall e a b, near s' g0 e a b -> near s g0 e a b).
        { induction 1 as [e p b qr H1 H2 H3|e p b a b' H1 H2 H3 Hn IH].
          - destruct (j_gpa _ _ _ HJ0 _ _ _ H2) as (Hp & _).
            destruct (r_back _ _ H3) as [(-> & _)|(_ & H0)]; [lia|..]; eapply near_one; eauto.
          - eapply near_step; eauto. }
        intros e a b m Hn Hc0. apply Hnear in Hn.
        pose proof (j_near _ _ _ HJ0 _ _ _ _ Hn Hc0) as X. pose proof (near_live _ _ _ _ _ Hn) as L. apply r_live in L.
        destruct b; [by apply r_know|by apply r_pend].
    - eapply (extra_trans s); [exact E|cbn; lia|..].
      + intros q qr' Hq. destruct (r_back _ _ Hq) as [(-> & ->)|(H1 & H3)]; [by right|left; eauto].
      + intros j wj' p qr' n Hj Hq La Hn e fre Hd0. destruct (r_lastc _ _ _ _ Hj Hq La) as (wj & H3 & H4 & La0).
        destruct (r_back _ _ Hd0) as [(-> & ->)|(_ & H5)]; [done|]. by eapply (e_quiet _ E _ _ _ _ _ H3 H4 La0 Hn).
      + intros r Hr. destruct (e_sem _ E _ Hr) as (H1 & H2). split; [cbn; lia|].
        intros qr' Hq. destruct (r_back _ _ Hq) as [(-> & ->)|(_ & H5)]; [lia|auto].
  Qed.

  (** ** The client takes the result *)

  Lemma s_get g r :
    J None s g -> 0 < sem s r -> J None s (vrun g (get_trace r)) /\ all_safe g (get_trace r).
  Proof.
    intros HJ Hs. destruct (e_sem _ E _ Hs) as (Hlt & Hsig). unfold get_trace. cbn [vrun all_safe].
    destruct (okay_sem s None (TX r) r (Rmw (OSem r) true false) true (KT (TX r))) with (g := g) as (S1 & P1); try done.
    { intros w0. apply rq_semc. }
    pose proof (J_step _ _ _ _ _ HJ P1) as HJ1. set (g1 := vstep g _) in *.
    assert (H1 : forall m, msg g1 (OSem r) m -> cur g1 (TX r) m).
    { intros m. apply rmw_acq'. apply HJ. }
    clearbody g1.
    assert (HL : forall a b g', J None s g' -> (forall m, msg g' (OSem r) m -> cur g' (TX r) m) ->
      access a = Some (LRes r, b, false) -> keeps s (TX r) a -> (forall h, a <> Code h) ->
      safe g' (TX r, a) /\ perm None s g' (TX r) a).
    { intros a b g' HJ' Hm Ha Hk Hc. split.
      - intros l w0 a0 m w1 a1 A B _ _. cbn in A |- *. rewrite Ha in A. injection A as <- _ _.
        destruct (j_req _ _ _ HJ' _ _ _ (KS r) _ (rq_sem _ _ _ _ Hs) B) as [H|H]; auto.
      - constructor; try done.
        + intros l w0 a0 k A R. rewrite Ha in A. injection A as <- <- <-.
          inversion R as [| |f' fr' ? ? ? Hf' Hsh|? ? ? ? ? ? Hct|? ? ? ? ? ? ? ? Hct|? ? ? ? ? ? ? ? Hct|
            | | | | | | | |r0 fr' ? ? Hf' Hk' Hr'|r' ? ? Hs0| |]; subst.
          * by destruct Hsh as [?|[?|[?|[?|(? & ?)]]]].
          * by destruct Hct as [(? & _)|([?|?] & _)].
          * by destruct Hct as [(? & _)|([?|?] & _)].
          * by destruct Hct as [(? & _)|([?|?] & _)].
          * by destruct Hr'; apply Hsig.
          * intros g2 m H. by right.
        + intros l w0 a0 f A Hl Hn. rewrite Ha in A. injection A as <- _ _. injection Hl as <-. lia.
        + intros y w0 a0 A. congruence.
        + intros f ->. by destruct (Hc f).
        + intros e p b0. by destruct a.
        + intros l w0 a0 A (q & [-> |[-> | ->]]); congruence. }
    destruct (HL (Read (LRes r)) false g1) as (S2 & P2); try done.
    pose proof (J_step _ _ _ _ _ HJ1 P2) as HJ2. set (g2 := vstep g1 _) in *.
    assert (H2 : forall m, msg g2 (OSem r) m -> cur g2 (TX r) m).
    { intros m H. left. by apply H1. }
    destruct (HL (Write (LRes r)) true g2) as (S3 & P3); try done.
    split_and!; try done. by apply J_step.
  Qed.
End root.
