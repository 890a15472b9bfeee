(** * Context switches, submitted tasks and new stacks. *)

From stdpp Require Import prelude gmap list relations.
From Coq Require Import NArith Lia.
From Verif Require Import RuntimeModel RuntimeSpec RuntimeInv RuntimeStep RuntimeStep3 SyncSpec SyncModel SyncViews
  SyncInv SyncTrans SyncAccess SyncStep SyncStep2 SyncMove SyncMove2.
Local Open Scope N_scope.

Section m.
  Context (nw : nat) (G G' : ghost) (s s' : state) (I0 : inv nw G s) (E : extra s) (I' : inv nw G' s') (g : views) (HJ : J None s g).
  Context (i : nat) (w : worker) (Hi : s_workers s !! i = Some w).

  Lemma s_switch f fr skip d k same wd :
    w_pc w = PRun f -> s_frames s !! f = Some fr -> f_rp fr = RRun (Switch skip d k) ->
    same_stacklet s f fr w = Some same ->
    s_workers (put_worker i (set_pc (PSwRel same) w) (put_frame f (set_rp (RSwitched d k) fr) s)) !! d = Some wd ->
    s' = put_worker d (set_inbox (w_inbox wd ++ [f]) wd)
           (put_worker i (set_pc (PSwRel same) w) (put_frame f (set_rp (RSwitched d k) fr) s)) ->
    goal s' g (TW i) ([Code f; Write (LFrame f)] ++ submit_acts d f).
  Proof.
    intros Hpc Hf Hr Hsame Hd Hs. set (fr' := set_rp _ fr) in *. set (w' := set_pc _ w) in *.
    assert (Hns : f_rp fr <> RSignalled) by (by rewrite Hr).
    assert (Hh : held s i f) by (eapply run_held; done).
    apply (goal_pre None s); [done| |].
    { oks; [by eapply ok_code|eapply okay_frame; [done|done|done|done|done]]. }
    clear g HJ. intros g HJ. unfold submit_acts.
    eapply (goal_act None s); [done|eapply okay_free; [done|exists d; by right; right|done]|].
    generalize (vstep g (TW i, Load (OInbox d) false)). clear g HJ. intros g HJ.
    eapply (goal_act None s); [done|by eapply okay_node|].
    generalize (vstep g (TW i, Write (LNode f))). clear g HJ. intros g HJ.
    eapply (goal_act None s); [done|eapply okay_free; [done|exists d; by right; right|done]|]. intros HJ1.
    pose proof (fun m => rmw_rel g (TW i) (OInbox d) false m) as Hrel. set (g1 := vstep g _) in *. clearbody g1. clear g HJ.
    assert (Hlen : (i < length (s_workers s))%nat) by (by eapply lookup_lt_Some).
    assert (exists wd0, s_workers s !! d = Some wd0) as (wd0 & Hd0).
    { apply lookup_lt_is_Some. apply lookup_lt_Some in Hd. cbn in Hd. by rewrite insert_length in Hd. }
    assert (Hwd : d <> i -> wd = wd0).
    { intros Hne. cbn in Hd. rewrite list_lookup_insert_ne in Hd by done. congruence. }
    (* first the inbox *)
    set (s1 := put_worker d (set_inbox (w_inbox wd0 ++ [f]) wd0) s).
    assert (Hd1 : s_workers s1 !! d = Some (set_inbox (w_inbox wd0 ++ [f]) wd0)).
    { apply list_lookup_insert. by eapply lookup_lt_Some. }
    assert (X : J None s1 g1 /\ extra s1).
    { eapply (J_wrk s s1 g1 None d wd0); [by eapply inv_stkl|done|done|done|done|done|done|by left|done|done|done|..].
      - intros q m [H|[H|(H & Hm)]]; (eapply kn_wrk; [exact Hd1|]); [by left|by right; left|].
        right; right. split; [|done]. cbn. apply elem_of_app. by left.
      - intros p m Hp Hm. right; right; right. exists d. eexists. split_and!; [exact Hd1|done|done].
      - done.
      - done.
      - intros m b a He A. refine (j_req _ _ _ HJ1 _ _ _ (KT (TW d)) _ (rq_stkw _ _ _ _ _ Hd0 He) A).
      - intros q l m b a _ He Hdt _. exfalso. by apply (Hdt d _ Hd1). }
    destruct X as (HJ2 & E2). clear HJ1.
    assert (exists w1, s_workers s1 !! i = Some w1 /\ w_pc w1 = PRun f /\ w_stk w1 = w_stk w /\ w_batch w1 = w_batch w /\
      w_deque w1 = w_deque w /\ s_workers s' = <[i := set_inbox (w_inbox w1) w']> (s_workers s1)) as (w1 & Hi1 & Q1 & Q2 & Q3 & Q4 & Q5).
    { destruct (decide (d = i)) as [->|Hne].
      - rewrite Hi in Hd0. injection Hd0 as <-. eexists. split; [exact Hd1|]. split_and!; try done.
        subst s'. cbn. rewrite !list_insert_insert. cbn in Hd. rewrite list_lookup_insert in Hd by done.
        by injection Hd as <-.
      - exists w. cbn. rewrite list_lookup_insert_ne by done. split_and!; try done. subst s'. cbn.
        rewrite Hwd by done. rewrite list_insert_commute by done. by destruct w. }
    set (w2 := set_inbox (w_inbox w1) w') in *.
    assert (Hi' : s_workers s' !! i = Some w2).
    { rewrite Q5. apply list_lookup_insert. by eapply lookup_lt_Some. }
    assert (Hdi : exists wd', s_workers s' !! d = Some wd' /\ f ∈ w_inbox wd').
    { destruct (decide (d = i)) as [->|Hne].
      - exists w2. split; [done|]. cbn. rewrite Hd1 in Hi1. injection Hi1 as <-. cbn. apply elem_of_app. right. by left.
      - exists (set_inbox (w_inbox wd0 ++ [f]) wd0). rewrite Q5, list_lookup_insert_ne by done. split; [done|].
        cbn. apply elem_of_app. right. by left. }
    destruct Hdi as (wd' & Hdi1 & Hdi2).
    assert (Hkn : forall m, cur g1 (TW i) m -> know s' g1 f m).
    { intros m Hm. eapply kn_wrk; [exact Hdi1|]. right; right. auto. }
    assert (Hf1 : s_frames s1 !! f = Some fr) by done.
    assert (Hf' : s_frames s' !! f = Some fr') by (subst s'; apply lookup_insert).
    assert (He1 : eff w1 = true) by (unfold eff; by rewrite Q1).
    assert (X : J None s' g1 /\ extra s').
    { eapply (J_one s1 s' g1 None) with (i := i) (w := w1) (w' := w2) (f := f);
      [by eapply (inv_stkl nw G s)|exact HJ2|exact E2|by subst s'|by subst s'|by subst s'|by subst s'|by left|exact Hi1|done|
       intros q Hq; subst s'; by apply lookup_insert_ne|by rewrite Hf1|..].
      - intros fr0 Hf0. rewrite Hf1 in Hf0. injection Hf0 as <-. exists fr'. split_and!; [done| |..].
        + constructor; [done|done|by left|done|by rewrite Hr].
        + by rewrite Hr.
        + by rewrite Hr.
        + by rewrite Hr.
        + intros m Hj Hm. right; left. split; [done|]. by exists fr'.
        + intros j wj Hne Hj [Hl|(Hl & m & st & k' & H)]; [split; [by left|done]|done].
      - intros q m [(H & Hm)|[(H & Hm)|(H & Hm)]].
        + rewrite Q1, Q3 in H. apply elem_of_cons in H as [-> |H]; [auto|].
          eapply kn_wrk; [exact Hi'|]. left. done.
        + rewrite Q4 in H. eapply kn_wrk; [exact Hi'|]. right; left. done.
        + eapply kn_wrk; [exact Hi'|]. right; right. done.
      - unfold final_of. by rewrite Q1.
      - done.
      - intros p q q' _ _ [(H & _)|(H & _)]; done.
      - intros m b a _ A. cbn in A. rewrite <- Q2 in A.
        refine (j_req _ _ _ HJ2 _ _ _ (KT (TW i)) _ (rq_stkw _ _ _ _ _ Hi1 He1) A).
      - intros q l m b a Hq _ Hdt A. destruct same.
        + left. assert (q = f) as ->.
          { rewrite Q2 in Hq. change (stk s1 (w_stk w)) with (stk s (w_stk w)) in Hq. clear - Hsame Hq.
            unfold same_stacklet in Hsame. case_decide; [|done]. rewrite Hq in Hsame. by case_decide. }
          apply Hkn. refine (j_req _ _ _ HJ2 _ _ _ (KT (TW i)) _ (rq_stkw _ _ _ _ _ Hi1 He1) A).
        + exfalso. by apply (Hdt i w2 Hi'). }
    destruct X as (X1 & X2). apply goal_end; [done|done|oks].
  Qed.

  (* resume.hpp:39-54 *)
  Lemma s_submitted f fr rest :
    w_pc w = PIdle -> w_batch w = f :: rest -> s_frames s !! f = Some fr -> stk s (w_stk w) = [] ->
    s' = put_worker i (let w' := set_batch rest (set_pc (PRun f) w) in
                       if decide (f_steals fr = 0) then set_wstk (f_stk fr) w' else w') s ->
    goal s' g (TW i) (submitted_acts w f s).
  Proof.
    intros Hpc Hb Hf Hemp Hs. cbn zeta in Hs. set (w' := if decide _ then _ else _) in Hs.
    unfold submitted_acts. rewrite Hf.
    assert (Hin : f ∈ w_batch w) by (rewrite Hb; by left).
    assert (Hh : held s i f) by (exists w; split; [done|]; apply elem_of_app; by right).
    assert (He : eff w = true) by (unfold eff; by rewrite Hpc).
    assert (Hpc' : w_pc w' = PRun f) by (subst w'; by case_decide).
    assert (He' : eff w' = true) by (unfold eff; by rewrite Hpc').
    assert (Hi' : s_workers s' !! i = Some w') by (eapply m_self; [done|by subst s']).
    destruct (i_wrk _ _ _ I0 _ _ Hi) as ((W & _) & _). destruct (W f) as (fr0 & Hf0 & W1); [apply elem_of_app; by right|].
    rewrite Hf in Hf0. injection Hf0 as <-. clear W.
    assert (HX : forall g, J None s g -> J None s' g /\ extra s').
    { clear g HJ. intros g HJ.
      eapply (J_wrk s s' g None i w w'); [by eapply inv_stkl|done|done|by subst s'|by subst s'|by subst s'|by subst s'|by left|by subst s'|done|by subst s'|..].
      - intros q m [(H & Hm)|H].
        + rewrite Hpc, Hb in H. eapply kn_wrk; [exact Hi'|]. left. split; [|done]. subst w'. by case_decide.
        + eapply kn_wrk; [exact Hi'|]. right. subst w'. by case_decide.
      - unfold final_of. by rewrite Hpc.
      - unfold final_of. by rewrite Hpc'.
      - intros q fq Hq [(H & _)|(H & m & st & k & H2)]; [congruence|]. rewrite Hpc' in H. injection H as <-.
        rewrite Hf in Hq. injection Hq as <-. by rewrite H2 in W1.
      - intros m b a _ A. subst w'. case_decide as D.
        + cbn in A. pose proof (i_node _ _ _ I0 _ _ Hf) as (N1 & N2 & _ & N4 & N5).
          assert (N : nforks f (shape_of (s_frames s)) = 0 /\ sumw (wsub f) (s_workers s) = 0 /\ f_joins fr = u16max /\
            ncalls f (shape_of (s_frames s)) = 0).
          { destruct (f_rp fr); try done; lia. }
          destruct N as (M1 & M2 & M3 & M4).
          destruct (childless_top _ _ _ _ _ I0 Hf M1 M4) as (l & Htop).
          assert (Hdt : detached s (f_stk fr)).
          { intros j wj Hj Hej. destruct (decide (j = i)) as [->|Hne]; [congruence|].
            intros Hx. eapply (i_own _ _ _ I' j i); [subst s'; cbn; by rewrite list_lookup_insert_ne|exact Hi'|done|done|done|done]. }
          apply (held_cur _ _ _ I0 _ _ f); [done|]. eapply pend_know; [done|done|done|done|].
          apply (j_req _ _ _ HJ _ _ _ (KP f) _ (rq_stkd _ _ _ _ _ _ Htop Hdt) A).
        + refine (j_req _ _ _ HJ _ _ _ (KT (TW i)) _ (rq_stkw _ _ _ _ _ Hi He) A).
      - intros q l m b a Hq. congruence. }
    assert (Hh' : held s' i f) by (eapply held_run; [exact Hi'|by rewrite Hpc']).
    apply (goal_pre None s); [done| |].
    { oks; [by eapply okay_node|eapply okay_frame; [done|done|done|done|done]]. }
    clear g HJ. intros g HJ.
    assert (HE : forall g, J None s' g -> extra s' -> goal s' g (TW i) [Read (LHdr f); Write (LFrame f)]).
    { intros g0 H1 H2. apply goal_end; [done|done|].
      oks; [eapply okay_share_held; [done|done|done|by left|done]|eapply okay_frame; [done|done|done|done|done]]. }
    case_decide as D.
    - change ([Read (LHdr f); Write (LStk (w_stk w)); Read (LStk (f_stk fr))] ++ [Read (LHdr f); Write (LFrame f)]) with
        ([Read (LHdr f); Write (LStk (w_stk w))] ++ [Read (LStk (f_stk fr)); Read (LHdr f); Write (LFrame f)]).
      apply (goal_pre None s); [done| |].
      { oks; [eapply okay_share_held; [done|done|done|by left|done]|by eapply okay_stk]. }
      clear g HJ. intros g HJ. destruct (HX g HJ) as (X1 & X2).
      eapply (goal_act None s'); [done| |].
      { assert (Hx : f_stk fr = w_stk w') by done. rewrite Hx. by eapply okay_stk. }
      intros X3. by apply HE.
    - destruct (HX g HJ) as (X1 & X2). by apply HE.
  Qed.

  (* a new stack: promise.hpp:130, awaitables.hpp:129 *)
  Lemma s_newstk w' :
    eff w = false -> final_of w = None -> pc_tok (w_pc w) = [] ->
    pc_tok (w_pc w') = [] -> final_of w' = None -> w_deque w' = w_deque w -> w_inbox w' = w_inbox w -> w_batch w' = w_batch w ->
    w_stk w' = s_nexts s -> (forall p fr, ~ lastc w' p fr) ->
    s' = put_worker i w' (bump_s s) ->
    goal s' g (TW i) [Write (LStk (s_nexts s))].
  Proof.
    intros He Hfi Hp Hp' Hfi' Q1 Q2 Q3 Q4 Hla Hs.
    assert (Hi' : s_workers s' !! i = Some w') by (eapply m_self; [done|by subst s']).
    eapply (goal_act (Some (TW i)) s); [by apply J_nb|by eapply okay_newstk|]. intros HJ1.
    set (g1 := vstep g _) in *.
    assert (X : J None s' g1 /\ extra s').
    { eapply (J_wrk s s' g1 (Some (TW i)) i w w'); [by eapply inv_stkl|done|done|by subst s'|by subst s'| |by subst s'| |by subst s'|done|by subst s'|..].
      - subst s'. cbn. lia.
      - right. split_and!.
        + intros l m b a [A|(_ & A)] Hl.
          * destruct (j_newf _ _ _ HJ _ _ _ _ _ A Hl) as (_ & t & ? & _); [lia|done].
          * cbn in A. injection A as <- <- <-. done.
        + intros m b a _. subst s'. cbn. lia.
        + intros c p b Hg. apply vstep_gpa in Hg as [Hg|Hg]; [|done].
          destruct (j_gpa _ _ _ HJ _ _ _ Hg) as (_ & [?|?] & _); [|done]. by subst s'.
      - intros q m H. eapply kn_wrk; [exact Hi'|]. unfold wknow in *. by rewrite Hp', Q1, Q2, Q3, <- Hp.
      - congruence.
      - congruence.
      - intros p q _ H. by apply Hla in H.
      - intros m b a _ A. rewrite Q4 in A. destruct (j_news _ _ _ HJ1 _ _ _ _ A) as (_ & t & Ht & Hc); [lia|]. congruence.
      - congruence. }
    destruct X as (X1 & X2). apply goal_end; [done|done|oks].
  Qed.
End m.
