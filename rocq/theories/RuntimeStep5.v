(** * Preservation of the invariant: steps of a running task. *)

From stdpp Require Import prelude gmap list.
From Coq Require Import NArith Lia.
From Verif Require Import RuntimeModel RuntimeSpec RuntimeInv RuntimeStep RuntimeStep2 RuntimeStep3 RuntimeStep4.
Local Open Scope N_scope.

(** Two workers and one frame change; the tokens only move. *)
Lemma inv_2 nw G s s' i j w w' v v' f fr fr' :
  inv nw G s -> i <> j ->
  s_workers s !! i = Some w -> s_workers s !! j = Some v -> s_frames s !! f = Some fr ->
  s_workers s' = <[j := v']> (<[i := w']> (s_workers s)) ->
  s_frames s' = <[f := fr']> (s_frames s) ->
  f_kind fr' = f_kind fr -> f_stk fr' = f_stk fr ->
  s_stacks s' = s_stacks s -> s_nextf s' = s_nextf s -> s_nexts s' = s_nexts s ->
  (forall p, is_capt p fr' = is_capt p fr) ->
  (forall q, wtok q w' + wtok q v' = wtok q w + wtok q v /\
             wpend q w' + wpend q v' = wpend q w + wpend q v /\
             wsub q w' + wsub q v' = wsub q w + wsub q v) ->
  (node_ok nw fr (nforks f (shape_of (s_frames s))) (ncalls f (shape_of (s_frames s)))
     (ncapt f (s_frames s)) (sumw (wsub f) (s_workers s)) (sumw (wpend f) (s_workers s))
     (sumw (wtok f) (s_workers s)) ->
   node_ok nw fr' (nforks f (shape_of (s_frames s))) (ncalls f (shape_of (s_frames s)))
     (ncapt f (s_frames s)) (sumw (wsub f) (s_workers s)) (sumw (wpend f) (s_workers s))
     (sumw (wtok f) (s_workers s))) ->
  (forall c k x, shape_of (s_frames s) !! c = Some (k, x) -> par k = Some f ->
    kid_ok fr (k, x) -> kid_ok fr' (k, x)) ->
  (sig fr' = sig fr \/ 0 < wtok f w) ->
  worker_ok (s_frames s') (stk s) G i w' -> worker_ok (s_frames s') (stk s) G j v' ->
  w_stk w' = w_stk w -> w_stk v' = w_stk v ->
  (eff w' = true -> eff w = true) -> (eff v' = true -> eff v = true) ->
  inv nw G s'.
Proof.
  intros I Hij Hi Hj Hf Ews EF Ek Es Est Enf Ens Hcapt Hneut Hnode Hkid Hoth Hw Hv Es1 Es2 He1 He2.
  assert (Hlt : (i < length (s_workers s))%nat) by (by apply lookup_lt_Some in Hi).
  assert (Hltj : (j < length (s_workers s))%nat) by (by apply lookup_lt_Some in Hj).
  assert (Hj' : <[i := w']> (s_workers s) !! j = Some v) by (by rewrite list_lookup_insert_ne).
  assert (Esh : shape_of (s_frames s') = shape_of (s_frames s)).
  { rewrite EF. by eapply shape_upd. }
  assert (Ecp : forall q, ncapt q (s_frames s') = ncapt q (s_frames s)).
  { intros q. unfold ncapt. rewrite EF. pose proof (cntm_upd (is_capt q) _ _ _ fr' Hf) as X.
    rewrite Hcapt in X. lia. }
  assert (ET : forall g, (g w' + g v' = g w + g v) -> sumw g (s_workers s') = sumw g (s_workers s)).
  { intros g Hg. rewrite Ews. pose proof (sumw_insert g _ _ _ v' Hj') as X.
    pose proof (sumw_insert g _ _ _ w' Hi) as Y. lia. }
  assert (HS : forall x, stk s' x = stk s x) by (intros; by apply stk_same).
  assert (Hlk : forall n u, s_workers s' !! n = Some u ->
     (n = i /\ u = w') \/ (n = j /\ u = v') \/ (n <> i /\ n <> j /\ s_workers s !! n = Some u)).
  { intros n u. rewrite Ews. destruct (decide (n = j)) as [->|Hn].
    - rewrite list_lookup_insert by (by rewrite insert_length). intros [= <-]. auto.
    - rewrite list_lookup_insert_ne by done. destruct (decide (n = i)) as [->|Hn'].
      + rewrite list_lookup_insert by done. intros [= <-]. auto.
      + rewrite list_lookup_insert_ne by done. auto. }
  constructor.
  - rewrite Ews, !insert_length. apply I.
  - intros q frq Hq. rewrite Esh, Ecp.
    destruct (Hneut q) as (T1 & T2 & T3). rewrite !ET by done. rewrite EF in Hq.
    destruct (decide (q = f)) as [->|Hne].
    + rewrite lookup_insert in Hq. injection Hq as <-. apply Hnode. by apply (i_node _ _ _ I).
    + rewrite lookup_insert_ne in Hq by done. by apply (i_node _ _ _ I).
  - intros q Hq. rewrite Esh. destruct (Hneut q) as (T1 & T2 & T3). rewrite !ET by done.
    apply (i_dead _ _ _ I). rewrite EF in Hq. apply lookup_insert_None in Hq as [? ?]. done.
  - intros c k x p frp. rewrite Esh. intros Hc Hp Hfp. rewrite EF in Hfp.
    destruct (decide (p = f)) as [->|Hne].
    + rewrite lookup_insert in Hfp. injection Hfp as <-.
      destruct (i_kid _ _ _ I c k x f fr Hc Hp Hf) as (K1 & K2). eauto.
    + rewrite lookup_insert_ne in Hfp by done. by eapply (i_kid _ _ _ I).
  - rewrite Esh. apply I.
  - intros q Hq. rewrite Enf in Hq. rewrite EF. assert (q <> f).
    { intros ->. rewrite (i_fresh _ _ _ I) in Hf; done. }
    rewrite lookup_insert_ne by done. by apply I.
  - rewrite Esh, Ens. eapply stk_ok_ext; [..|apply I]; [done|]. lia.
  - intros n u Hn. rewrite Ens.
    assert (X : forall F G i w, worker_ok F (stk s) G i w -> worker_ok F (stk s') G i w).
    { intros F0 G0 i0 w0 Hw0. eapply worker_ok_mono; [..|exact Hw0]; try done.
      - intros. by apply sig_agree_same.
      - eauto. }
    destruct (Hlk n u Hn) as [(-> & ->)|[(-> & ->)|(Hni & Hnj & Hu)]].
    + split; [by apply X|]. rewrite Es1. by eapply (i_wrk _ _ _ I).
    + split; [by apply X|]. rewrite Es2. by eapply (i_wrk _ _ _ I).
    + destruct (i_wrk _ _ _ I n u Hu) as (V1 & V2). split; [|done]. apply X.
      eapply worker_ok_mono; [..|exact V1]; try done.
      * intros q Hq. rewrite EF. destruct (decide (q = f)) as [->|Hnq]; [|by apply sig_agree_ne].
        destruct Hoth as [Hs|Ht].
        -- intros fr0 Hf0. exists fr'. rewrite lookup_insert. split; [done|]. congruence.
        -- pose proof (tok_other _ _ _ _ _ i n w u I Hf Hi Hu ltac:(done) Ht). lia.
      * intros q Hq frq Hfq. rewrite EF. destruct (decide (q = f)) as [->|].
        -- rewrite lookup_insert. exists fr'. split; [done|]. congruence.
        -- rewrite lookup_insert_ne by done. eauto.
  - assert (HE : forall n u, s_workers s' !! n = Some u -> eff u = true ->
      exists u0, s_workers s !! n = Some u0 /\ eff u0 = true /\ w_stk u0 = w_stk u).
    { intros n u Hn Heu. destruct (Hlk n u Hn) as [(-> & ->)|[(-> & ->)|(Hni & Hnj & Hu)]]; eauto. }
    intros n1 n2 u1 u2 H1 H2 Hne Hu1 Hu2.
    destruct (HE _ _ H1 Hu1) as (x1 & X1 & X2 & <-). destruct (HE _ _ H2 Hu2) as (x2 & X3 & X4 & <-).
    by eapply (i_own _ _ _ I n1 n2).
Qed.

Lemma childless_capt F p :
  nforks p (shape_of F) = 0 -> ncalls p (shape_of F) = 0 -> ncapt p F = 0.
Proof.
  intros H1 H2. destruct (decide (0 < ncapt p F)) as [H|]; [|lia]. exfalso.
  apply cntm_ex in H as (d & a & Hd & Ha). unfold is_capt in Ha.
  destruct (f_rp a); try done. apply bool_decide_eq_true in Ha.
  eapply kid_count; [by apply shape_lookup|exact Ha|done|done].
Qed.

Section cases.
Context (nw : nat) (G : ghost) (s : state) (i : nat) (w : worker).
Hypothesis (I : inv nw G s) (Hi : s_workers s !! i = Some w).
Context (f : N) (fr : frame).
Hypothesis (Hf : s_frames s !! f = Some fr).

Section run.
Hypothesis (Hpc : w_pc w = PRun f).

Lemma run_facts :
  sumw (wpend f) (s_workers s) = 0 /\ sumw (wtok f) (s_workers s) = 1 /\
  node_ok nw fr (nforks f (shape_of (s_frames s))) (ncalls f (shape_of (s_frames s)))
      (ncapt f (s_frames s)) (sumw (wsub f) (s_workers s)) 0 1 /\
    (f_steals fr = 0 -> w_stk w = f_stk fr /\ head_is (stk s (w_stk w)) f) /\
    (f_steals fr <> 0 -> stk s (w_stk w) = [] /\ w_stk w <> f_stk fr) /\
    links (s_frames s) G (G f) (w_deque w) /\
    f ∉ w_deque w /\ f ∉ w_inbox w ++ w_batch w.
Proof using I Hi Hf Hpc.
  destruct (running _ _ _ _ _ _ I Hi Hpc) as (fr0 & Hf0 & P1 & P2 & N & S1 & S2 & L & _ & D1 & D2).
  assert (fr0 = fr) as -> by congruence. done.
Qed.

Lemma tokw : wtok f w = 1.
Proof using I Hi Hf Hpc.
  destruct run_facts as (_ & P2 & _). pose proof (sumw_ge (wtok f) _ _ _ Hi) as X. rewrite P2 in X.
  assert (1 <= wtok f w); [|lia]. unfold wtok. rewrite Hpc. cbn. rewrite eqn_refl. lia.
Qed.

Lemma good_deliver t o :
  f_rp fr = RRun t -> (exists v, t = Ret v) \/ (exists e, t = Throw e) -> good nw (deliver f fr o s).
Proof using I Hi Hf Hpc.
  intros Hr Ht. unfold deliver.
  set (s1 := put_frame f (set_rp RFinal fr) s).
  assert (I1 : inv nw G s1) by (eapply (local_final nw G s i w f fr t s1); done).
  assert (Hsh := shape_lookup _ _ _ Hf).
  assert (HX : forall p, par (f_kind fr) = Some p -> exists frp, s_frames s !! p = Some frp /\ p <> f).
  { intros p Hp. destruct (inv_parent _ _ _ _ _ _ _ I Hsh Hp) as (frp & Hfp). exists frp. split; [done|].
    destruct (i_kid _ _ _ I f _ _ p frp Hsh Hp Hfp). lia. }
  assert (HC : forall p frp j cl, s_frames s !! p = Some frp -> p <> f ->
    good nw (Next (put_frame p (set_cells (<[j := cl]> (f_cells frp)) frp) s1) [EvEnd f o])).
  { intros p frp j cl Hp Hne. exists G.
    eapply (inv_data nw G s1 _ i w p frp); try done.
    - cbn. by rewrite lookup_insert_ne.
    - unfold sig. cbn. by rewrite insert_length. }
  assert (HR : forall p frp e j, (f_kind fr = KFork p j false \/ f_kind fr = KCall p j false) ->
    s_frames s !! p = Some frp -> p <> f -> f_eflag frp = false ->
    good nw (Next (put_frame p (set_exc true (f_eptr frp) frp) (put_frame f (set_rp (RCapture e) fr) s)) [EvEnd f o])).
  { intros p frp e j Hk Hp Hne Hfl. exists G.
    eapply (inv_capt nw G s _ i w f fr (set_rp (RCapture e) fr) p frp); try done; eauto.
    left. exists t, e. done. }
  destruct (f_kind fr) as [|p j st|p j st] eqn:Ek.
  - exists G. by eapply (local_final nw G s i w f fr t).
  - destruct (HX p eq_refl) as (frp & Hp & Hne). rewrite Hp.
    destruct o as [v|e]; [by apply HC|]. destruct st; [by apply HC|].
    destruct (f_eflag frp) eqn:Efl; [by exists G|]. by eapply HR; eauto.
  - destruct (HX p eq_refl) as (frp & Hp & Hne). rewrite Hp.
    destruct o as [v|e]; [by apply HC|]. destruct st; [by apply HC|].
    destruct (f_eflag frp) eqn:Efl; [by exists G|]. by eapply HR; eauto.
Qed.

Lemma good_capture e : f_rp fr = RCapture e -> good nw (capture f fr e s).
Proof using I Hi Hf Hpc.
  intros Hr. unfold capture.
  destruct run_facts as (_ & _ & (_ & _ & _ & _ & N) & _). rewrite Hr in N.
  destruct N as (_ & _ & _ & _ & _ & p & j & Hk).
  assert (Hsh := shape_lookup _ _ _ Hf).
  assert (Hpar : par (f_kind fr) = Some p) by (destruct Hk as [-> | ->]; done).
  destruct (inv_parent _ _ _ _ _ _ _ I Hsh Hpar) as (frp & Hp).
  assert (X : good nw (Next (put_frame p (set_exc (f_eflag frp) (Some e) frp) (put_frame f (set_rp RFinal fr) s)) [])).
  { exists G. eapply (inv_capt nw G s _ i w f fr (set_rp RFinal fr) p frp); try done; eauto.
    - exists j. tauto.
    - right. exists e, e. done. }
  destruct Hk as [E|E]; rewrite E, Hp; done.
Qed.

Lemma good_fork_fail m st c k t' tr :
  (f_rp fr = RRun (Fork m st c k) /\ t' = k (FExn EBadAlloc)) ->
  good nw (Next (put_frame f (set_rp (RRun t') fr) s) tr).
Proof using I Hi Hf Hpc.
  intros (Hr & ->). eapply (local_rr nw G s i w f fr _ (Fork m st c k)); try done; [by left|].
  intros (n & x & Hs & H1 & H2 & H3). exists n, x. cbn. split_and!; try done. inversion Hs; done.
Qed.
Lemma good_call_fail m st c k t' tr :
  (f_rp fr = RRun (Call m st c k) /\ t' = k (CExn EBadAlloc)) ->
  good nw (Next (put_frame f (set_rp (RRun t') fr) s) tr).
Proof using I Hi Hf Hpc.
  intros (Hr & ->). eapply (local_rr nw G s i w f fr _ (Call m st c k)); try done; [by left|].
  intros (n & x & Hs & H1 & H2 & H3). exists n, x. cbn. split_and!; try done. inversion Hs; done.
Qed.
Lemma good_skip sk d k tr :
  f_rp fr = RRun (Switch sk d k) -> good nw (Next (put_frame f (set_rp (RRun k) fr) s) tr).
Proof using I Hi Hf Hpc.
  intros Hr. eapply (local_rr nw G s i w f fr _ (Switch sk d k)); try done; [by left|].
  intros (n & x & Hs & H1 & H2 & H3). exists n, x. cbn. split_and!; try done. inversion Hs; done.
Qed.
Lemma good_switched d k tr :
  f_rp fr = RSwitched d k -> good nw (Next (put_frame f (set_rp (RRun k) fr) s) tr).
Proof using I Hi Hf Hpc.
  intros Hr. eapply (local_rr nw G s i w f fr _ k); try done; by right; eauto.
Qed.
Lemma good_where k x tr :
  f_rp fr = RRun (Where k) -> good nw (Next (put_frame f (set_rp (RRun (k x)) fr) s) tr).
Proof using I Hi Hf Hpc.
  intros Hr. eapply (local_rr nw G s i w f fr _ (Where k)); try done; [by left|].
  intros (n & y & Hs & H1 & H2 & H3). exists n, y. cbn. split_and!; try done. inversion Hs; done.
Qed.
Lemma good_stash e k tr :
  f_rp fr = RRun (Stash e k) -> good nw (Next (put_frame f (set_rp (RRun k) (self_capture e fr)) s) tr).
Proof using I Hi Hf Hpc.
  intros Hr. exists G. cbn.
  set (fr' := set_rp (RRun k) (self_capture e fr)).
  assert (E : f_kind fr' = f_kind fr /\ f_stk fr' = f_stk fr /\ f_steals fr' = f_steals fr /\ f_cells fr' = f_cells fr /\
    f_joins fr' = f_joins fr /\ f_rp fr' = RRun k /\ f_eflag fr' = true /\
    f_eptr fr' = if f_eflag fr then f_eptr fr else Some e).
  { unfold fr', self_capture. destruct (f_eflag fr) eqn:E; cbn; split_and!; done. }
  destruct E as (E1 & E2 & E3 & E4 & E5 & E6 & E7 & E8).
  eapply (inv_local nw G s _ i w f fr fr'); try done.
  - by rewrite E4.
  - intros. eapply not_capt_run. by left.
  - intros nf nc ncp nsb _ _ H.
    destruct (node_run _ _ _ _ _ _ _ _ _ H (or_introl Hr)) as (N1 & _ & N2 & _ & N3 & N4 & N5).
    eapply node_to_run; try done; [by left|..].
    + rewrite E7, E8. destruct (f_eflag fr), (f_eptr fr); cbn in *; lia.
    + destruct N5 as (n & x & Hs & H1 & H2 & H3). exists n, true. rewrite E3.
      split_and!; try done; [by inversion Hs|by left].
Qed.

Lemma good_fork m st c k :
  f_rp fr = RRun (Fork m st c k) ->
  good nw (let cid := s_nextf s in
      let fr' := set_cells (f_cells fr ++ [CUnset]) (set_rp (RFork m st k (f_steals fr)) fr) in
      Next (put_worker i (set_pc (PRun cid) (set_deque (f :: w_deque w) w))
             (spawn_child w (KFork f (length (f_cells fr)) st) c (put_frame f fr' s)))
           [EvFork f cid st c; EvResume i cid]).
Proof using I Hi Hf Hpc.
  intros Hr. cbn zeta. eexists. cbn.
  eapply (inv_new nw G s _ i w f fr (KFork f (length (f_cells fr)) st) _ c); try done.
  left. exists m, k. done.
Qed.

Lemma good_call m st c k :
  f_rp fr = RRun (Call m st c k) ->
  good nw (let cid := s_nextf s in
      let fr' := set_cells (f_cells fr ++ [CUnset]) (set_rp (RCall m st k) fr) in
      Next (put_worker i (set_pc (PRun cid) w)
             (spawn_child w (KCall f (length (f_cells fr)) st) c (put_frame f fr' s)))
           [EvCall f cid st c; EvResume i cid]).
Proof using I Hi Hf Hpc.
  intros Hr. cbn zeta. eexists. cbn.
  eapply (inv_new nw G s _ i w f fr (KCall f (length (f_cells fr)) st) _ c); try done.
  right. exists m, k. done.
Qed.

Lemma local_fork m st k pre fr' t' tr s' :
  f_rp fr = RFork m st k pre -> fr' = set_rp (RRun t') fr \/ (exists e, f_eptr fr = Some e /\ fr' = set_rp (RRun t') (set_exc false None fr)) ->
  s' = put_frame f fr' s ->
  (forall n x, fork_scope nw n x m st k -> pre <= n -> (f_steals fr = pre \/ f_steals fr = pre + 1) ->
      (f_eflag fr = true -> x = true ∨ st = false ∨ 0 < n) -> run_scope nw fr' t') ->
  good nw (Next s' tr).
Proof using I Hi Hf Hpc.
  intros Hr Efr -> Hs. exists G. cbn.
  assert (E : f_kind fr' = f_kind fr /\ f_stk fr' = f_stk fr /\ f_steals fr' = f_steals fr /\ f_cells fr' = f_cells fr /\
    f_joins fr' = f_joins fr /\ f_rp fr' = RRun t') by (by destruct Efr as [-> |(e & _ & ->)]).
  destruct E as (E1 & E2 & E3 & E4 & E5 & E6).
  eapply (inv_local nw G s _ i w f fr fr'); try done.
  - by rewrite E4.
  - by rewrite E6.
  - intros. unfold is_capt. by rewrite Hr.
  - intros nf nc ncp nsb _ _ (N1 & N2 & N3 & N4 & N5). rewrite Hr in *.
    destruct N5 as (N5 & n & x & F1 & F2 & F3 & F4).
    unfold node_ok. rewrite E6, E5, E3. split_and!; try done; try lia.
    + destruct Efr as [-> |(e & Ep & ->)]; cbn; [done|]. rewrite Ep in N3.
      destruct (f_eflag fr); cbn in *; lia.
    + eapply Hs; try done. lia.
Qed.

Lemma rethrow_defined :
  nforks f (shape_of (s_frames s)) = 0 -> ncalls f (shape_of (s_frames s)) = 0 ->
  (f_eflag fr = false /\ f_eptr fr = None /\ unsafe_rethrow fr = Some (None, fr)) \/
  (exists e, f_eflag fr = true /\ f_eptr fr = Some e /\ unsafe_rethrow fr = Some (Some e, set_exc false None fr)).
Proof using I Hf.
  intros H1 H2. pose proof (childless_capt _ _ H1 H2) as H3.
  pose proof (i_node _ _ _ I f fr Hf) as (_ & _ & N & _). rewrite H3 in N.
  unfold unsafe_rethrow. destruct (f_eflag fr), (f_eptr fr); cbn in *; try lia; [right|left]; eauto.
Qed.

Lemma good_fork_resume seen m st k pre :
  f_rp fr = RFork m st k pre -> good nw (fork_resume seen i w f fr m st k pre s).
Proof using I Hi Hf Hpc.
  intros Hr. unfold fork_resume.
  destruct run_facts as (_ & _ & N & _).
  assert (HA : forall tr, good nw (Next (put_frame f (set_rp (RRun (k FAsync)) fr) s) tr)).
  { intros tr. eapply local_fork; try done; [by left|].
    intros n x (F1 & _ & F3 & _) Hn Hs He. exists (n + 1), (x || negb st). cbn. split_and!; try done; lia. }
  assert (HD : forall tr cl, f_steals fr = pre -> m <> FNone ->
     good nw (Next (put_frame f (set_rp (RRun (k (FDone cl))) fr) s) tr)).
  { intros tr cl Hp Hm. eapply local_fork; try done; [by left|].
    intros n x (F1 & _ & _ & F3 & _) Hn Hs He. exists n, (x || negb st). cbn.
    split_and!; try done; [auto|lia|lia|].
    intros E. destruct (He E) as [-> |[-> | ?]]; [by left|left; by destruct x|by right]. }
  assert (HB : forall tr e, f_steals fr = pre -> f_steals fr <> 0 -> st = true ->
     good nw (Next (put_frame f (set_rp (RRun (k (FExn e))) fr) s) tr)).
  { intros tr e Hp Hz ->. eapply local_fork; try done; [by left|].
    intros n x (F1 & _ & _ & _ & F3) Hn Hs He. exists n, x. cbn. split_and!; try done; try lia. }
  destruct m; [apply HA| |].
  - destruct (decide (f_steals fr = pre)) as [Hp|]; [|apply HA].
    destruct st; [|by apply HD].
    destruct (decide (f_steals fr = 0)) as [Hz|Hz].
    + destruct (unstolen_childless _ _ _ _ _ _ _ N eq_refl Hz) as (N1 & N2 & _).
      destruct (rethrow_defined N1 N2) as [(E1 & E2 & ->)|(e & E1 & E2 & ->)]; [by apply HD|].
      eapply local_fork; try done; [right; eauto|].
      intros n x (F1 & _ & _ & _ & F3) Hn Hs He. exists n, x. cbn. split_and!; try done; lia.
    + destruct (f_eflag fr), seen; cbn [andb]; first [by apply HB|by apply HD].
  - destruct (decide (f_steals fr = pre)) as [Hp|]; [|apply HA].
    destruct st; [|by apply HD].
    destruct (decide (f_steals fr = 0)) as [Hz|Hz].
    + destruct (unstolen_childless _ _ _ _ _ _ _ N eq_refl Hz) as (N1 & N2 & _).
      destruct (rethrow_defined N1 N2) as [(E1 & E2 & ->)|(e & E1 & E2 & ->)]; [by apply HD|].
      eapply local_fork; try done; [right; eauto|].
      intros n x (F1 & _ & _ & _ & F3) Hn Hs He. exists n, x. cbn. split_and!; try done; lia.
    + exfalso. destruct N as (_ & _ & _ & _ & N). rewrite Hr in N.
      destruct N as (_ & n & x & (_ & F2 & _) & F3 & _). rewrite F2 in F3 by done. lia.
Qed.

Lemma good_root_signal :
  f_rp fr = RFinal -> f_kind fr = KRoot ->
  good nw (Next (put_sem f (sem s f + 1) (put_frame f (set_rp RSignalled fr) s)) [EvSignal f]).
Proof using I Hi Hf Hpc.
  intros Hr Hk. exists G. cbn. eapply (inv_local nw G s _ i w f fr (set_rp RSignalled fr)); try done.
  - intros. unfold is_capt. by rewrite Hr.
  - intros nf nc ncp nsb _ _ (N1 & N2 & N3 & N4 & N5). rewrite Hr in *.
    unfold node_ok. cbn. split_and!; naive_solver.
Qed.

End run.
End cases.
