(** * Steps of a worker that is not running a task, and context switches. *)

From stdpp Require Import prelude gmap list relations.
From Coq Require Import NArith Lia.
From Verif Require Import RuntimeModel RuntimeSpec RuntimeInv RuntimeStep RuntimeStep3 SyncSpec SyncModel SyncViews
  SyncInv SyncTrans SyncAccess SyncStep SyncStep2 SyncMove.
Local Open Scope N_scope.

(* only a worker changes *)
Lemma J_wrk s s' g nb i w w' :
  stkl s -> J nb s g -> extra s ->
  (forall x, stk s' x = stk s x) -> s_nextf s' = s_nextf s -> s_nexts s <= s_nexts s' ->
  (forall r, sem s' r = sem s r) ->
  (nb = None \/
     (forall l m w a, acs g l m w a -> floc l = Some (s_nextf s) -> s_nextf s < s_nextf s') /\
     (forall m w a, acs g (LStk (s_nexts s)) m w a -> s_nexts s < s_nexts s') /\
     (forall c p b, gpa g c p b -> c < s_nextf s')) ->
  s_frames s' = s_frames s -> s_workers s !! i = Some w -> s_workers s' = <[i := w']> (s_workers s) ->
  (forall q m, wknow g i w q m -> know s' g q m) ->
  (forall p m, final_of w = Some p -> cur g (TW i) m -> pend s' g p m) ->
  (forall p, final_of w' = Some p -> final_of w = Some p) ->
  (forall p q, s_frames s !! p = Some q -> lastc w' p q -> lastc w p q) ->
  (forall m b a, eff w' = true -> acs g (LStk (w_stk w')) m b a -> cur g (TW i) m) ->
  (forall q l m b a, stk s (w_stk w) = q :: l -> eff w = true -> detached s' (w_stk w) ->
     acs g (LStk (w_stk w)) m b a -> pend s' g q m) ->
  J None s' g /\ extra s'.
Proof.
  intros HS HJ HE H1 H2 H3 H4 HN HF Hi Hi' Hwk Hf1 Hf2 Hla Hs1 Hs2.
  eapply (J_one s s' g nb) with (i := i) (w := w) (w' := w') (f := 0); try done.
  - intros q _. by rewrite HF.
  - by rewrite HF.
  - intros fr Hf. exists fr. split_and!; [by rewrite HF|apply fcompat_refl|done|done|..].
    + intros k m Hr Hm. eapply kn_join; [by rewrite HF|done|done].
    + intros m Hr Hm. right; left. split; [done|]. exists fr. by rewrite HF.
    + done.
  - intros p q q' Hq Hq' Hl. rewrite HF in Hq'. simplify_eq. split; [by eapply Hla|done].
Qed.

Lemma u16inc_ne a : u16inc a <> a.
Proof.
  unfold u16inc, u16mod. intros H. pose proof (N.mod_lt (a + 1) 65536 ltac:(lia)) as Hlt.
  destruct (decide (a + 1 < 65536)) as [Hs|Hs].
  - rewrite N.mod_small in H by done. lia.
  - assert (a = 65535) as -> by lia. done.
Qed.

Lemma rmw_acq' g t o r m :
  (forall m, rel g t m -> cur g t m) -> msg (vstep g (t, Rmw o true r)) o m -> cur (vstep g (t, Rmw o true r)) t m.
Proof.
  intros Hr. cbn [msg cur vstep]. unfold msg', cur'. cbn [fst snd]. rewrite decide_True by done. intros [H|[(_ & H)|H]].
  - right. cbn. tauto.
  - done.
  - left. auto.
Qed.

Lemma ok_pop nb s i d : Forall (okay nb s (TW i)) (pop_acts i d).
Proof.
  assert (HO : forall a o b, access a = Some (LAt o, b, true) -> (o = OTop i \/ o = OBot i) -> keeps s (TW i) a ->
    okay nb s (TW i) a).
  { intros a o b Ha Ho Hk. eapply okay_free; [done| |done]. exists i. destruct Ho as [-> | ->]; auto. }
  assert (HL : forall q, okay nb s (TW i) (Load (OBot i) q)) by (intros; eapply HO; [done|by right|done]).
  assert (HT : forall q, okay nb s (TW i) (Load (OTop i) q)) by (intros; eapply HO; [done|by left|done]).
  assert (HB : okay nb s (TW i) (Store (OBot i) false)) by (eapply HO; [done|by right|by exists i]).
  assert (HR : okay nb s (TW i) (Rmw (OTop i) true true)) by (eapply HO; [done|by left|done]).
  assert (HQ : okay nb s (TW i) (Fence true true)) by (by apply okay_quiet).
  unfold pop_acts. apply Forall_app. split; [by oks|]. destruct d as [|? [|? ?]]; by oks.
Qed.

Section m.
  Context (nw : nat) (G G' : ghost) (s s' : state) (I0 : inv nw G s) (E : extra s) (I' : inv nw G' s') (g : views) (HJ : J None s g).
  Context (i : nat) (w : worker) (Hi : s_workers s !! i = Some w).

  Lemma m_self w' : s_workers s' = <[i := w']> (s_workers s) -> s_workers s' !! i = Some w'.
  Proof. intros ->. apply list_lookup_insert. by eapply lookup_lt_Some. Qed.

  (* the pop of promise.hpp:53 finds the parent *)
  Lemma s_final_hit p d :
    w_pc w = PFinal p -> w_deque w = p :: d -> s' = put_worker i (set_pc (PRun p) (set_deque d w)) s ->
    goal s' g (TW i) (pop_acts i (w_deque w) ++ [Read (LHdr p); Write (LFrame p)]).
  Proof.
    intros Hpc Hd Hs. apply (goal_pre None s); [done|apply ok_pop|]. clear g HJ. intros g HJ.
    set (w' := set_pc _ _) in Hs.
    assert (Hi' : s_workers s' !! i = Some w') by (apply m_self; by subst s').
    assert (He : eff w = true) by (unfold eff; by rewrite Hpc).
    assert (Hkn : forall m, cur g (TW i) m -> know s' g p m).
    { intros m Hm. eapply kn_wrk; [exact Hi'|]. left. split; [by left|done]. }
    assert (X : J None s' g /\ extra s').
    { eapply (J_wrk s s' g None i w w'); [by eapply inv_stkl|done|done|by subst s'|by subst s'|by subst s'|by subst s'|by left|by subst s'|done|by subst s'|..].
      - intros q m [(H & Hm)|[(H & Hm1 & Hm2)|(H & Hm)]].
        + rewrite Hpc in H. eapply kn_wrk; [exact Hi'|]. left. split; [by right|done].
        + rewrite Hd in H. apply elem_of_cons in H as [-> |H]; [apply Hkn; by apply HJ|].
          eapply kn_wrk; [exact Hi'|]. right; left. done.
        + eapply kn_wrk; [exact Hi'|]. right; right. done.
      - intros q m Hq Hm. unfold final_of in Hq. rewrite Hpc in Hq. injection Hq as <-. left. auto.
      - done.
      - intros q fq Hq [(H & _)|(H & _)]; [done|]. injection H as <-. left. eauto.
      - intros m b a _ A. refine (j_req _ _ _ HJ _ _ _ (KT (TW i)) _ (rq_stkw _ _ _ _ _ Hi He) A).
      - intros q l m b a _ _ Hdt _. exfalso. by apply (Hdt i w' Hi'). }
    destruct X as (X1 & X2). apply goal_end; [done|done|].
    assert (Hh : held s' i p) by (by eapply held_run).
    oks; [eapply okay_share_held; [done|done|done|by left|done]|eapply okay_frame; [done|done|done|done|done]].
  Qed.

  Lemma s_final_miss p :
    w_pc w = PFinal p -> s' = put_worker i (set_pc (PSub p) w) s -> goal s' g (TW i) (pop_acts i (w_deque w)).
  Proof.
    intros Hpc Hs. rewrite <- (app_nil_r (pop_acts _ _)). apply (goal_pre None s); [done|apply ok_pop|]. clear g HJ. intros g HJ.
    destruct (updw s i w (set_pc (PSub p) w) g) as (X1 & X2); [by eapply inv_stkl|done|done|done| | |].
    - unfold wsim, final_of, eff. by rewrite Hpc.
    - intros q fq _ [(H & _)|(H & _)]; done.
    - subst s'. apply goal_end; [done|done|oks].
  Qed.

  Lemma s_self_miss :
    w_pc w = PSelf -> s' = put_worker i (set_pc PIdle w) s -> goal s' g (TW i) (pop_acts i (w_deque w)).
  Proof.
    intros Hpc Hs. rewrite <- (app_nil_r (pop_acts _ _)). apply (goal_pre None s); [done|apply ok_pop|]. clear g HJ. intros g HJ.
    destruct (updw s i w (set_pc PIdle w) g) as (X1 & X2); [by eapply inv_stkl|done|done|done| | |].
    - unfold wsim, final_of, eff. by rewrite Hpc.
    - intros q fq _ [(H & _)|(H & _)]; done.
    - subst s'. apply goal_end; [done|done|oks].
  Qed.

  (* a steal is counted *)
  Lemma J_bump f fr w' :
    s_frames s !! f = Some fr -> 1 <= wpend f w -> w_pc w' = PRun f -> w_stk w' = w_stk w ->
    final_of w = None -> eff w = true ->
    s' = put_worker i w' (put_frame f (set_steals (u16inc (f_steals fr)) fr) s) ->
    (forall q m, wknow g i w q m -> know s' g q m) ->
    J None s' g /\ extra s'.
  Proof.
    intros Hf Hp Hpc' Hst Hfi He Hs Hwk. set (fr' := set_steals _ _) in Hs.
    assert (Hi' : s_workers s' !! i = Some w') by (apply m_self; by subst s').
    assert (Hf' : s_frames s' !! f = Some fr') by (subst s'; apply lookup_insert).
    assert (Htk : 0 < wtok f w) by (pose proof (wpend_le_wtok f w); lia).
    pose proof (i_node _ _ _ I0 _ _ Hf) as (N1 & _ & _ & _ & N5).
    pose proof (sumw_ge (wpend f) _ _ _ Hi) as Hge.
    eapply (J_one s s' g None) with (i := i) (w := w) (w' := w') (f := f);
      [by eapply inv_stkl|exact HJ|exact E|by subst s'|by subst s'|by subst s'|by subst s'|by left|exact Hi|by subst s'|
       intros q Hq; subst s'; by apply lookup_insert_ne|congruence|..].
    - intros fr0 Hf0. rewrite Hf in Hf0. injection Hf0 as <-. exists fr'. split_and!; [done| |done|done|..].
      + constructor; [done|done|by left|by left; eauto|done].
      + intros k m Hr Hm. by eapply kn_join.
      + intros m Hj Hm. right; left. split; [done|]. by exists fr'.
      + intros j wj Hne Hj [Hl|(Hl & _)]; [split; [by left|done]|]. exfalso.
        pose proof (tok_other _ _ _ f fr i j w wj I0 Hf Hi Hj (not_eq_sym Hne) Htk) as X. unfold wtok in X. rewrite Hl in X. cbn in X.
        rewrite eqn_refl in X. lia.
    - done.
    - congruence.
    - unfold final_of. by rewrite Hpc'.
    - intros p q q' Hq Hq' [(H & _)|(H & m & st & k & Hr)]; [congruence|]. exfalso.
      rewrite Hpc' in H. injection H as <-. rewrite Hf' in Hq'. injection Hq' as <-. cbn in Hr. rewrite Hr in N5.
      destruct N5 as (_ & n & x & _ & _ & _ & [(H & _)|(_ & H)]); [|lia]. symmetry in H. by apply u16inc_ne in H.
    - intros m b a _ A. rewrite Hst in A. refine (j_req _ _ _ HJ _ _ _ (KT (TW i)) _ (rq_stkw _ _ _ _ _ Hi He) A).
    - intros q l m b a _ _ Hd _. exfalso. apply (Hd i w' Hi'); [unfold eff; by rewrite Hpc'|done].
  Qed.
End m.

Section m2.
  Context (nw : nat) (G G' : ghost) (s s' : state) (I0 : inv nw G s) (E : extra s) (I' : inv nw G' s') (g : views) (HJ : J None s g).
  Context (i : nat) (w : worker) (Hi : s_workers s !! i = Some w).

  Lemma s_self_hit q d fr :
    w_pc w = PSelf -> w_deque w = q :: d -> s_frames s !! q = Some fr ->
    s' = put_worker i (set_pc (PRun q) (set_deque d w)) (put_frame q (set_steals (u16inc (f_steals fr)) fr) s) ->
    goal s' g (TW i) (pop_acts i (w_deque w) ++ [Write (LFrame q); Read (LHdr q)]).
  Proof.
    intros Hpc Hd Hf Hs. apply (goal_pre None s); [done|apply ok_pop|]. clear g HJ. intros g HJ.
    set (w' := set_pc _ _) in Hs.
    assert (Hi' : s_workers s' !! i = Some w') by (eapply m_self; [done|by subst s']).
    assert (X : J None s' g /\ extra s').
    { eapply (J_bump nw G G' s s' I0 E I' g HJ i w Hi q fr w'); try done.
      - unfold wpend. rewrite Hpc, Hd. cbn. rewrite eqn_refl. lia.
      - unfold final_of. by rewrite Hpc.
      - unfold eff. by rewrite Hpc.
      - intros p m [(H & Hm)|[(H & Hm1 & Hm2)|(H & Hm)]].
        + rewrite Hpc in H. eapply kn_wrk; [exact Hi'|]. left. split; [by right|done].
        + rewrite Hd in H. apply elem_of_cons in H as [-> |H].
          * eapply kn_wrk; [exact Hi'|]. left. split; [by left|by apply HJ].
          * eapply kn_wrk; [exact Hi'|]. right; left. done.
        + eapply kn_wrk; [exact Hi'|]. right; right. done. }
    destruct X as (X1 & X2). apply goal_end; [done|done|].
    assert (Hh : held s' i q) by (by eapply held_run).
    oks; [eapply okay_frame; [done|done|done|done|done]|eapply okay_share_held; [done|done|done|by left|done]].
  Qed.

  Lemma s_stolen f fr :
    w_pc w = PStolen f -> s_frames s !! f = Some fr ->
    s' = put_worker i (set_pc (PRun f) w) (put_frame f (set_steals (u16inc (f_steals fr)) fr) s) ->
    goal s' g (TW i) [Write (LFrame f); Read (LHdr f)].
  Proof.
    intros Hpc Hf Hs.
    set (w' := set_pc _ _) in Hs.
    assert (Hi' : s_workers s' !! i = Some w') by (eapply m_self; [done|by subst s']).
    assert (X : J None s' g /\ extra s').
    { eapply (J_bump nw G G' s s' I0 E I' g HJ i w Hi f fr w'); try done.
      - unfold wpend. rewrite Hpc. rewrite eqn_refl. lia.
      - unfold final_of. by rewrite Hpc.
      - unfold eff. by rewrite Hpc.
      - intros p m [(H & Hm)|H].
        + rewrite Hpc in H. eapply kn_wrk; [exact Hi'|]. left. done.
        + eapply kn_wrk; [exact Hi'|]. by right. }
    destruct X as (X1 & X2). apply goal_end; [done|done|].
    assert (Hh : held s' i f) by (by eapply held_run).
    oks; [eapply okay_frame; [done|done|done|done|done]|eapply okay_share_held; [done|done|done|by left|done]].
  Qed.

  (* an idle worker takes its submissions *)
  Lemma s_take :
    w_pc w = PIdle -> w_batch w = [] -> s' = put_worker i (set_inbox [] (set_batch (w_inbox w) w)) s ->
    goal s' g (TW i) (take_acts i (w_inbox w)).
  Proof.
    intros Hpc Hb Hs. unfold take_acts.
    eapply (goal_act None s); [done|eapply okay_free; [done|exists i; by right; right|done]|]. intros HJ1.
    pose proof (fun m => rmw_acq' g (TW i) (OInbox i) false m (j_rel _ _ _ HJ (TW i))) as Hacq.
    set (g1 := vstep g _) in *. set (w' := set_inbox _ _) in Hs.
    assert (Hi' : s_workers s' !! i = Some w') by (eapply m_self; [done|by subst s']).
    assert (He : eff w = true) by (unfold eff; by rewrite Hpc).
    assert (X : J None s' g1 /\ extra s').
    { eapply (J_wrk s s' g1 None i w w'); [by eapply inv_stkl|done|done|by subst s'|by subst s'|by subst s'|by subst s'|by left|by subst s'|done|by subst s'|..].
      - intros q m [(H & Hm)|[(H & Hm)|(H & Hm)]].
        + rewrite Hpc, Hb in H. by apply elem_of_nil in H.
        + eapply kn_wrk; [exact Hi'|]. right; left. done.
        + eapply kn_wrk; [exact Hi'|]. left. split; [|auto]. cbn. by rewrite Hpc.
      - unfold final_of. by rewrite Hpc.
      - done.
      - intros q fq _ [(H & _)|(H & _)]; cbn in H; congruence.
      - intros m b a _ A. refine (j_req _ _ _ HJ1 _ _ _ (KT (TW i)) _ (rq_stkw _ _ _ _ _ Hi He) A).
      - intros q l m b a _ _ Hd _. exfalso. by apply (Hd i w' Hi'). }
    destruct X as (X1 & X2). apply goal_end; [done|done|].
    apply Forall_forall. intros a Ha. apply elem_of_list_In, in_concat in Ha as (l & Hl & Ha).
    apply in_map_iff in Hl as (f & <- & Hf). apply elem_of_list_In in Hf, Ha.
    assert (Hh : held s' i f).
    { exists w'. split; [done|]. cbn. rewrite Hpc. done. }
    apply elem_of_cons in Ha as [-> |Ha]; [by eapply okay_node|].
    apply elem_of_list_singleton in Ha as ->. by eapply okay_node.
  Qed.

  (* an idle worker steals *)
  Lemma s_steal v wv f :
    i <> v -> s_workers s !! v = Some wv -> w_pc w = PIdle -> last (w_deque wv) = Some f ->
    s' = put_worker i (set_pc (PStolen f) w) (put_worker v (set_deque (removelast (w_deque wv)) wv) s) ->
    goal s' g (TW i) (steal_acts v).
  Proof.
    intros Hne Hv Hpc Hl Hs. unfold steal_acts.
    assert (HL : forall q, okay None s (TW i) (Load (OTop v) q)).
    { intros q. eapply okay_free; [done|exists v; by left|done]. }
    eapply (goal_act None s); [done|apply HL|]. generalize (vstep g (TW i, Load (OTop v) true)). clear g HJ. intros g HJ.
    eapply (goal_act None s); [done|by apply okay_quiet|]. generalize (vstep g (TW i, Fence true true)). clear g HJ. intros g HJ.
    eapply (goal_act None s); [done|eapply okay_free; [done|exists v; by right; left|done]|]. intros HJ1.
    pose proof (fun m => load_acq g (TW i) (OBot v) m) as Hacq.
    eapply (goal_act None s); [done|eapply okay_free; [done|exists v; by left|done]|]. intros HJ2.
    set (g1 := vstep g _) in *. set (g2 := vstep g1 _) in *.
    assert (Hbot : forall m, msg g2 (OBot v) m -> cur g2 (TW i) m).
    { intros m H. left. apply Hacq. revert H. unfold g2. cbn. unfold msg'. cbn. by rewrite decide_False. }
    clearbody g2. clear Hacq g1 HJ1 HJ HL g.
    assert (He : eff w = true) by (unfold eff; by rewrite Hpc).
    set (w' := set_pc (PStolen f) w) in *. set (s1 := put_worker i w' s).
    assert (Hi1 : s_workers s1 !! i = Some w') by (apply list_lookup_insert; by eapply lookup_lt_Some).
    assert (X : J None s1 g2 /\ extra s1).
    { eapply (J_wrk s s1 g2 None i w w'); [by eapply inv_stkl|done|done|done|done|done|done|by left|done|done|done|..].
      - intros q m [(H & Hm)|H].
        + rewrite Hpc in H. eapply kn_wrk; [exact Hi1|]. left. split; [by right|done].
        + eapply kn_wrk; [exact Hi1|]. by right.
      - unfold final_of. by rewrite Hpc.
      - done.
      - intros q fq _ [(H & _)|(H & _)]; done.
      - intros m b a _ A. refine (j_req _ _ _ HJ2 _ _ _ (KT (TW i)) _ (rq_stkw _ _ _ _ _ Hi He) A).
      - intros q l m b a _ _ Hd _. exfalso. by apply (Hd i w' Hi1). }
    destruct X as (HJ1 & E1). clear HJ2.
    assert (Hv1 : s_workers s1 !! v = Some wv) by (cbn; by rewrite list_lookup_insert_ne).
    set (wv' := set_deque _ wv) in Hs.
    assert (Hw : s_workers s' = <[v := wv']> (s_workers s1)).
    { subst s'. cbn. by rewrite list_insert_commute. }
    assert (Hv' : s_workers s' !! v = Some wv').
    { rewrite Hw. apply list_lookup_insert. by eapply lookup_lt_Some. }
    assert (Hi' : s_workers s' !! i = Some w') by (rewrite Hw, list_lookup_insert_ne by done; done).
    assert (Hdq : exists l, w_deque wv = l ++ [f] /\ w_deque wv' = l).
    { exists (removelast (w_deque wv)). split; [|done]. revert Hl. clear. induction (w_deque wv) as [|x l IH] using rev_ind; [done|].
      rewrite last_snoc, removelast_last. by intros [= ->]. }
    destruct Hdq as (l0 & Hd1 & Hd2).
    assert (X : J None s' g2 /\ extra s').
    { eapply (J_wrk s1 s' g2 None v wv wv'); [by eapply (inv_stkl nw G s)|done|done|by subst s'|by subst s'|by subst s'|by subst s'|by left|by subst s'|done|done|..].
      - intros q m [(H & Hm)|[(H & Hm1 & Hm2)|(H & Hm)]].
        + eapply kn_wrk; [exact Hv'|]. left. done.
        + rewrite Hd1 in H. apply elem_of_app in H as [H|H].
          * eapply kn_wrk; [exact Hv'|]. right; left. by rewrite Hd2.
          * apply elem_of_list_singleton in H as ->. eapply kn_wrk; [exact Hi'|]. left. split; [by left|auto].
        + eapply kn_wrk; [exact Hv'|]. right; right. done.
      - intros p m Hp Hm. right; right; right. exists v, wv'. done.
      - done.
      - intros q fq _ [(H & d & Hdd)|H]; [left|by right]. split; [done|]. rewrite Hd1, <- Hd2, Hdd. by eexists.
      - intros m b a He' A. refine (j_req _ _ _ HJ1 _ _ _ (KT (TW v)) _ (rq_stkw _ _ _ _ _ Hv1 He') A).
      - intros q l m b a _ He' Hd _. exfalso. by apply (Hd v wv' Hv'). }
    destruct X as (X1 & X2). apply goal_end; [done|done|oks].
  Qed.
End m2.
