(** * Steps that move the right to run a task, and create and destroy nothing. *)

From stdpp Require Import prelude gmap list relations.
From Coq Require Import NArith Lia.
From Verif Require Import RuntimeModel RuntimeSpec RuntimeInv RuntimeStep RuntimeStep3 SyncSpec SyncModel SyncViews
  SyncInv SyncTrans SyncAccess SyncStep SyncStep2.
Local Open Scope N_scope.

Section one.
  Context (s s' : state) (g : views) (nb : option thread) (HS : stkl s) (HJ : J nb s g) (HE : extra s).
  Context (Hstk : forall x, stk s' x = stk s x) (Hnf : s_nextf s' = s_nextf s) (Hns : s_nexts s <= s_nexts s').
  Context (Hsem : forall r, sem s' r = sem s r).
  Context (HN : nb = None \/
     (forall l m w a, acs g l m w a -> floc l = Some (s_nextf s) -> s_nextf s < s_nextf s') /\
     (forall m w a, acs g (LStk (s_nexts s)) m w a -> s_nexts s < s_nexts s') /\
     (forall c p b, gpa g c p b -> c < s_nextf s')).
  (* the worker *)
  Context (i : nat) (w w' : worker) (Hi : s_workers s !! i = Some w) (Hi' : s_workers s' = <[i := w']> (s_workers s)).
  (* the task *)
  Context (f : N) (HFo : forall q, q <> f -> s_frames s' !! q = s_frames s !! q).
  Context (HFn : s_frames s !! f = None -> s_frames s' !! f = None).
  Context (HFf : forall fr, s_frames s !! f = Some fr -> exists fr', s_frames s' !! f = Some fr' /\
    fcompat s s' g g f fr fr' /\ (forall x y k, f_rp fr = RCall x y k -> f_rp fr' = RCall x y k) /\
    (f_rp fr = RSignalled -> f_rp fr' = RSignalled) /\
    (forall k m, f_rp fr = RJoin k -> msg g (OJoin f) m -> know s' g f m) /\
    (forall m, f_joins fr <> u16max -> msg g (OJoin f) m -> pend s' g f m) /\
    (forall j wj, j <> i -> s_workers s !! j = Some wj -> lastc wj f fr' ->
       lastc wj f fr /\ length (f_cells fr') = length (f_cells fr))).
  Context (Hwk : forall q m, wknow g i w q m -> know s' g q m).
  Context (Hfin : forall p m, final_of w = Some p -> cur g (TW i) m -> pend s' g p m).
  Context (Hfin' : forall p, final_of w' = Some p -> final_of w = Some p).
  Context (Hlast : forall p q q', s_frames s !! p = Some q -> s_frames s' !! p = Some q' -> lastc w' p q' ->
    lastc w p q /\ length (f_cells q') = length (f_cells q)).
  Context (Hstkw : forall m b a, eff w' = true -> acs g (LStk (w_stk w')) m b a -> cur g (TW i) m).
  Context (Hstkd : forall q l m b a, stk s (w_stk w) = q :: l -> eff w = true -> detached s' (w_stk w) ->
    acs g (LStk (w_stk w)) m b a -> pend s' g q m).

  Local Lemma o_self : s_workers s' !! i = Some w'.
  Proof. rewrite Hi'. apply list_lookup_insert. by eapply lookup_lt_Some. Qed.
  Local Lemma o_oth j : j <> i -> s_workers s' !! j = s_workers s !! j.
  Proof. intros H. rewrite Hi'. by apply list_lookup_insert_ne. Qed.
  Local Lemma o_back q qr' : s_frames s' !! q = Some qr' -> exists qr, s_frames s !! q = Some qr /\ fcompat s s' g g q qr qr'.
  Proof.
    intros H. destruct (decide (q = f)) as [->|Hne].
    - destruct (s_frames s !! f) as [fr|] eqn:Hf; [|by rewrite HFn in H].
      destruct (HFf fr eq_refl) as (fr' & H1 & H2 & _). simplify_eq. eauto.
    - rewrite HFo in H by done. exists qr'. split; [done|]. apply fcompat_refl.
  Qed.
  Local Lemma o_live q : live s q -> live s' q.
  Proof.
    intros (qr & H). destruct (decide (q = f)) as [->|Hne].
    - destruct (HFf _ H) as (fr' & H1 & _). by exists fr'.
    - exists qr. by rewrite HFo.
  Qed.
  Local Lemma o_dom q : live s q <-> live s' q.
  Proof. split; [apply o_live|]. intros (qr & H). destruct (o_back _ _ H) as (qr0 & H0 & _). by exists qr0. Qed.
  Local Lemma o_lastc j wj' p q' : s_workers s' !! j = Some wj' -> s_frames s' !! p = Some q' -> lastc wj' p q' ->
    exists wj q, s_workers s !! j = Some wj /\ s_frames s !! p = Some q /\ lastc wj p q /\
      length (f_cells q') = length (f_cells q).
  Proof.
    intros Hj Hq Hl. destruct (o_back _ _ Hq) as (q & Hq0 & C). destruct (decide (j = i)) as [->|Hne].
    - rewrite o_self in Hj. injection Hj as <-. exists w, q. destruct (Hlast _ _ _ Hq0 Hq Hl). done.
    - rewrite o_oth in Hj by done. exists wj', q. destruct (decide (p = f)) as [->|Hpf].
      + destruct (HFf _ Hq0) as (fr' & H1 & _ & _ & _ & _ & _ & H2). simplify_eq. destruct (H2 _ _ Hne Hj Hl). done.
      + rewrite HFo in Hq by done. simplify_eq. done.
  Qed.

  Lemma o_TK q m : know s g q m -> live s' q -> know s' g q m.
  Proof.
    revert q m. apply know_lift.
    - intros j wj q m Hj Hk _. destruct (decide (j = i)) as [->|Hne]; [simplify_eq; auto|].
      eapply kn_wrk; [by rewrite o_oth|done].
    - intros q qr k m Hq Hr Hm _. destruct (decide (q = f)) as [->|Hne].
      + destruct (HFf _ Hq) as (fr' & H1 & _ & _ & _ & H2 & _). eauto.
      + eapply kn_join; [by rewrite HFo|done|done].
    - intros q qr x y k c frc j st Hq Hr Hc Hk _. left.
      destruct (o_live c) as (frc' & Hc'); [by exists frc|]. destruct (o_back _ _ Hc') as (frc0 & Hc0 & C). simplify_eq.
      destruct (decide (q = f)) as [->|Hne].
      + destruct (HFf _ Hq) as (fr' & H1 & _ & H2 & _). exists fr', x, y, k, frc'. split_and!; [done|auto|done|apply C].
      + exists qr, x, y, k, frc'. split_and!; [by rewrite HFo|done|done|apply C].
  Qed.

  Lemma o_TP q m : pend s g q m -> live s' q -> pend s' g q m.
  Proof.
    intros Hp Hl. revert Hp. apply pend_lift; [apply o_TK|done|..].
    - intros qr Hq Hj Hm. destruct (decide (q = f)) as [->|Hne].
      + destruct (HFf _ Hq) as (fr' & H1 & _ & _ & _ & _ & H2 & _). eauto.
      + right; left. split; [done|]. exists qr. by rewrite HFo.
    - intros c frc j st Hc Hk. left. destruct (o_live c) as (frc' & Hc'); [by exists frc|].
      destruct (o_back _ _ Hc') as (frc0 & Hc0 & C). simplify_eq. exists frc'. split; [done|apply C].
    - intros j wj Hj Hw Hc. destruct (decide (j = i)) as [->|Hne]; [simplify_eq; auto|].
      right; right; right. exists j, wj. by rewrite o_oth.
  Qed.

  Lemma J_one : J None s' g /\ extra s'.
  Proof.
    split.
    - eapply (J_trans nb s g s' g); [done|by eapply ext_refl|lia|done|done|..].
      + intros q qr' Hq. left. by apply o_back.
      + apply o_TK.
      + apply o_TP.
      + intros j wj' p Hj Hw. left. destruct (decide (j = i)) as [->|Hne].
        * rewrite o_self in Hj. injection Hj as <-. eauto.
        * rewrite o_oth in Hj by done. eauto.
      + intros j wj' p q' n m b a Hj Hq Hl Hn A. destruct (o_lastc _ _ _ _ Hj Hq Hl) as (wj & q & H1 & H2 & H3 & H4).
        rewrite H4 in Hn. refine (j_req _ _ _ HJ _ _ _ (KT (TW j)) _ (rq_last _ _ _ _ _ _ _ _ H1 H2 H3 Hn) A).
      + intros j wj' m b a Hj He A. destruct (decide (j = i)) as [->|Hne].
        * rewrite o_self in Hj. injection Hj as <-. by eapply Hstkw.
        * rewrite o_oth in Hj by done. refine (j_req _ _ _ HJ _ _ _ (KT (TW j)) _ (rq_stkw _ _ _ _ _ Hj He) A).
      + intros x q l m b a Hx Hd A. rewrite Hstk in Hx.
        destruct (decide (eff w = true /\ w_stk w = x)) as [(He & <-)|Hno]; [by eapply Hstkd|].
        assert (Hd0 : detached s x).
        { intros j wj Hj He. destruct (decide (j = i)) as [->|Hne].
          - simplify_eq. intros Hx0. by apply Hno.
          - apply (Hd j wj); [by rewrite o_oth|done]. }
        apply o_TP.
        * apply (j_req _ _ _ HJ _ _ _ (KP q) _ (rq_stkd _ _ _ _ _ _ Hx Hd0) A).
        * apply o_live. by eapply HS.
      + intros r Hr. left. by rewrite <- Hsem.
      + intros c a b m Hn Hc. apply (near_dom s) in Hn; [|apply o_dom].
        pose proof (j_near _ _ _ HJ _ _ _ _ Hn Hc) as X. pose proof (near_live _ _ _ _ _ Hn) as L. apply o_live in L.
        destruct b; [by apply o_TK|by apply o_TP].
    - eapply extra_local; [exact HE|lia|..].
      + intros q qr' Hq. destruct (o_back _ _ Hq) as (qr & ? & C). exists qr. split; [done|apply C].
      + intros j wj' p q' Hj Hq Hl. destruct (o_lastc _ _ _ _ Hj Hq Hl) as (wj & q & H1 & H2 & H3 & H4). eauto 10.
      + intros r Hr. rewrite Hsem in Hr. destruct (e_sem _ HE r Hr) as (H1 & H2). split; [lia|].
        intros qr' Hq. destruct (o_back _ _ Hq) as (qr & Hq0 & _). destruct (decide (r = f)) as [->|Hne].
        * destruct (HFf _ Hq0) as (fr' & H3 & _ & _ & H4 & _). simplify_eq. eauto.
        * rewrite HFo in Hq by done. simplify_eq. eauto.
  Qed.
End one.

(** ** Joins that succeed *)

Lemma excl_run nw G s i w f fr :
  inv nw G s -> s_workers s !! i = Some w -> w_pc w = PRun f -> s_frames s !! f = Some fr -> f_steals fr = 0 ->
  excl s i f.
Proof. intros. eapply run_excl; eauto. Qed.

Section join.
  Context (nw : nat) (G G' : ghost) (s s' : state) (I0 : inv nw G s) (E : extra s) (I' : inv nw G' s').
  Context (i : nat) (w w' : worker) (f : N) (fr fr' : frame) (t : task).
  Context (Hi : s_workers s !! i = Some w) (Hf : s_frames s !! f = Some fr).
  Context (Hpc : forall q, q ∈ pc_tok (w_pc w) -> q = f) (Hfi : forall p, final_of w = Some p -> p = f).
  Context (Heff : eff w = true) (Hrp : match f_rp fr with RCall _ _ _ | RSignalled => False | _ => True end).
  Context (Hstk : forall x, stk s' x = stk s x) (Hnf : s_nextf s' = s_nextf s) (Hns : s_nexts s' = s_nexts s).
  Context (Hsem : forall r, sem s' r = sem s r).
  Context (Hw : s_workers s' = <[i := w']> (s_workers s)) (Hfs : s_frames s' = <[f := fr']> (s_frames s)).
  Context (Hpc' : w_pc w' = PRun f) (Hd' : w_deque w' = w_deque w) (Hb' : w_inbox w' = w_inbox w) (Hc' : w_batch w' = w_batch w).
  Context (Hs' : w_stk w' = f_stk fr) (Hs : stk s (w_stk w) = [] \/ w_stk w = f_stk fr).
  Context (Hk : f_kind fr' = f_kind fr) (Hr' : f_rp fr' = RRun t) (Hsc : f_stk fr' = f_stk fr) (Hst : f_steals fr' = 0)
    (Hlen : length (f_cells fr') = length (f_cells fr)).

  Local Lemma jt_i' : s_workers s' !! i = Some w'.
  Proof. rewrite Hw. apply list_lookup_insert. by eapply lookup_lt_Some. Qed.
  Local Lemma jt_f' : s_frames s' !! f = Some fr'.
  Proof. rewrite Hfs. apply lookup_insert. Qed.
  Lemma jt_excl : excl s' i f.
  Proof. eapply excl_run; [exact I'|exact jt_i'|done|exact jt_f'|done]. Qed.

  Lemma join_tail g : J None s g -> (forall m, pend s g f m -> cur g (TW i) m) -> J None s' g /\ extra s'.
  Proof.
    intros HJ Hpd. pose proof jt_excl as Hx. pose proof jt_i' as Hi'. pose proof jt_f' as Hf'.
    assert (Hkw : forall m, cur g (TW i) m -> know s' g f m).
    { intros m H. eapply kn_wrk; [exact Hi'|]. left. split; [|done]. rewrite Hpc'. by left. }
    destruct Hx as (Hh & N1 & N2 & N3 & fr0 & Hf0 & N4 & _). rewrite Hf' in Hf0. injection Hf0 as <-.
    assert (Hkind : forall c frc, s_frames s !! c = Some frc -> exists frc', s_frames s' !! c = Some frc' /\ f_kind frc' = f_kind frc).
    { intros c frc Hc. rewrite Hfs. destruct (decide (c = f)) as [->|Hne].
      - rewrite lookup_insert. simplify_eq. eauto.
      - rewrite lookup_insert_ne by done. eauto. }
    assert (Htop : head_is (stk s (f_stk fr)) f).
    { rewrite <- Hstk, <- Hsc. by eapply childless_top. }
    eapply (J_one s s' g None); try done.
    - by eapply inv_stkl.
    - lia.
    - by left.
    - intros q Hq. rewrite Hfs. by apply lookup_insert_ne.
    - intros H. congruence.
    - intros fr0 Hf0. rewrite Hf in Hf0. injection Hf0 as <-. exists fr'. split_and!; [done| |..].
      + constructor; [done|lia| |by rewrite Hr'|intros _; intros Hsg; by rewrite Hsg in Hrp].
        intros _. right. split.
        * intros c frc Hc Hp. by eapply (no_kid s').
        * intros m Hm. auto.
      + intros x y k H. by rewrite H in Hrp.
      + intros H. by rewrite H in Hrp.
      + intros k m H Hm. apply Hkw, Hpd. left. by eapply kn_join.
      + intros m H Hm. left. apply Hkw, Hpd. right; left. eauto.
      + intros j wj Hne Hj [(H & _)|(H & m & st & k & H2)]; [|congruence]. exfalso.
        eapply (no_final s' f j wj); [done|rewrite Hw; by rewrite list_lookup_insert_ne|]. unfold final_of. by rewrite H.
    - intros q m [(H & Hm)|[(H & Hm)|(H & Hm)]].
      + apply elem_of_app in H as [H|H]; [apply Hpc in H as ->; auto|].
        eapply kn_wrk; [exact Hi'|]. left. split; [|done]. apply elem_of_app. right. by rewrite Hc'.
      + eapply kn_wrk; [exact Hi'|]. right; left. by rewrite Hd'.
      + eapply kn_wrk; [exact Hi'|]. right; right. by rewrite Hb'.
    - intros p m H Hm. apply Hfi in H as ->. left. auto.
    - intros p. unfold final_of. by rewrite Hpc'.
    - intros p q q' Hq Hq' [(H & _)|(H & m & st & k & H2)]; [congruence|]. rewrite Hpc' in H. injection H as <-. congruence.
    - intros m b a He A. rewrite Hs' in A.
      destruct (decide (w_stk w = f_stk fr)) as [Hsame|Hdiff].
      { rewrite <- Hsame in A. refine (j_req _ _ _ HJ _ _ _ (KT (TW i)) _ (rq_stkw _ _ _ _ _ Hi Heff) A). }
      assert (Hd : detached s (f_stk fr)).
      { intros j wj Hj Hej. destruct (decide (j = i)) as [->|Hne]; [congruence|]. rewrite <- Hs'.
        eapply (i_own _ _ _ I' j i); [rewrite Hw; by rewrite list_lookup_insert_ne|exact Hi'|done|done|done]. }
      destruct Htop as (l & Htop).
      apply Hpd. apply (j_req _ _ _ HJ _ _ _ (KP f) _ (rq_stkd _ _ _ _ _ _ Htop Hd) A).
    - intros q l m b a Hq He Hd A. destruct Hs as [Hs0|Hs0]; [congruence|].
      exfalso. apply (Hd i w' Hi'); [unfold eff; by rewrite Hpc'|congruence].
  Qed.

  Lemma ok_join_resume nb fr1 : extra s' -> Forall (okay nb s' (TW i)) (join_resume_acts f fr1).
  Proof.
    intros E'. pose proof jt_excl as Hx. pose proof jt_i' as Hi'. pose proof jt_f' as Hf'.
    unfold join_resume_acts, rethrow_acts.
    assert (HO : forall a l b, ownl f l -> access a = Some (l, b, false) -> (forall h, a <> Code h) -> okay nb s' (TW i) a).
    { intros. eapply okay_own; done. }
    assert (Hsh : ownl f (LAt (OFlag f))) by (right; right; right; right; by left).
    assert (Hse : ownl f (LExn f)) by (right; right; right; right; right; by left).
    apply Forall_app. split.
    - oks; [eapply HO; [|reflexivity|done]; done|].
      destruct (f_eflag fr1); oks; (eapply HO; [|reflexivity|done]; done).
    - apply Forall_app. split.
      + apply Forall_map_acts. intros l Hl. unfold cells in Hl. apply elem_of_list_fmap in Hl as (j & -> & _).
        eapply HO; [|done|done]. right; right. right; right; right; right. eauto.
      + oks. eapply ok_code; [exact I'|exact E'|exact Hi'|done|exact Hf'|by rewrite Hr'].
  Qed.

  Lemma ok_reset nb : okay nb s' (TW i) (Read (LStk (f_stk fr))) /\ okay nb s' (TW i) (Write (LFrame f)) /\
    okay nb s' (TW i) (Write (LAt (OJoin f))) /\ okay nb s' (TW i) (Read (LHdr f)).
  Proof.
    pose proof jt_excl as Hx. pose proof jt_i' as Hi'. split_and!.
    - rewrite <- Hs'. eapply okay_stk; [done|done|unfold eff; by rewrite Hpc'|done].
    - eapply okay_own; [done|done|by left|done|done].
    - eapply okay_own; [done|done|right; right; right; by left|done|done].
    - eapply okay_own; [done|done|right; right; by left|done|done].
  Qed.
End join.
