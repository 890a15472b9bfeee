(** * Preservation of the invariant: termination of tasks, steals, submissions;
    the main safety theorem. *)

From stdpp Require Import prelude gmap list.
From Coq Require Import NArith Lia.
From Verif Require Import RuntimeModel RuntimeSpec RuntimeInv RuntimeStep RuntimeStep2 RuntimeStep3
  RuntimeStep4 RuntimeStep5 RuntimeStep6.
Local Open Scope N_scope.

Section cases.
Context (nw : nat) (G : ghost) (s : state) (i : nat) (w : worker).
Hypothesis (I : inv nw G s) (Hi : s_workers s !! i = Some w).

Section fin.
Context (f : N) (fr : frame).
Hypothesis (Hf : s_frames s !! f = Some fr) (Hpc : w_pc w = PRun f).
Hypothesis (Hr : f_rp fr = RFinal \/ f_rp fr = RSignalled).

Lemma fin_facts :
  f_steals fr = 0 /\ f_joins fr = u16max /\ f_eflag fr = false /\ w_stk w = f_stk fr /\
  exists l, stk s (w_stk w) = f :: l.
Proof using I Hi Hf Hpc Hr.
  destruct (run_facts nw G s i w I Hi f fr Hf Hpc) as (P1 & P2 & N & S1 & S2 & L & D1 & D2).
  destruct N as (_ & _ & _ & _ & N5).
  assert (f_steals fr = 0) as Hz by (destruct Hr as [E|E]; rewrite E in N5; apply N5).
  destruct (S1 Hz) as (E1 & E2). split_and!; try done; destruct Hr as [E|E]; rewrite E in N5; apply N5.
Qed.

Lemma destroy_eq l :
  stk s (w_stk w) = f :: l -> destroy w f fr s = Some (put_stack (w_stk w) l (del_frame f s)).
Proof using I Hi Hf Hpc Hr.
  intros Hl. destruct fin_facts as (_ & _ & _ & E & _). unfold destroy.
  rewrite decide_True by done. rewrite Hl. by rewrite decide_True.
Qed.

(** What is below a finished task on its stack. *)
Lemma below l p :
  stk s (w_stk w) = f :: l -> par (f_kind fr) = Some p ->
  exists frp, s_frames s !! p = Some frp /\ p < f /\
    ((f_stk frp = w_stk w /\ head_is l p) \/ (f_stk frp <> w_stk w /\ l = [])).
Proof using I Hi Hf Hpc Hr.
  intros Hl Hp. destruct fin_facts as (_ & _ & _ & E & _).
  assert (Hsh := shape_lookup _ _ _ Hf).
  destruct (inv_parent _ _ _ _ _ _ _ I Hsh Hp) as (frp & Hfp).
  destruct (i_kid _ _ _ I f _ _ p frp Hsh Hp Hfp) as (K & Klt).
  exists frp. split; [done|]. split; [done|].
  pose proof (i_stk _ _ _ I) as O.
  destruct l as [|q l'].
  - destruct (decide (f_stk frp = w_stk w)) as [E2|E2]; [exfalso|by right].
    rewrite <- E in Hsh. eapply (so_bot _ _ _ O (w_stk w) [] f _ p); [exact Hl|exact Hsh|exact Hp|].
    rewrite <- E2. by apply shape_lookup.
  - destruct (so_adj _ _ _ O (w_stk w) [] f q l' Hl) as (k & Hk & Hpk).
    rewrite Hsh in Hk. injection Hk as <- _. rewrite Hp in Hpk. injection Hpk as <-.
    left. split; [|by eexists].
    destruct (so_dom _ _ _ O p (w_stk w)) as (kp & Hkp). { rewrite Hl. set_solver. }
    rewrite (shape_lookup _ _ _ Hfp) in Hkp. congruence.
Qed.

Lemma fin_capt q : is_capt q fr = false.
Proof using Hr. unfold is_capt. destruct Hr as [-> | ->]; done. Qed.

Lemma fin_sig F' :
  (forall q, q <> f -> sig_agree (s_frames s) F' q) ->
  forall j wj, j <> i -> s_workers s !! j = Some wj -> forall q, 0 < wtok q wj ->
    sig_agree (s_frames s) F' q.
Proof using I Hi Hf Hpc.
  intros H j wj Hj Hwj q Hq. apply H. intros ->.
  pose proof (tok_other _ _ _ f fr i j w wj I Hf Hi Hwj ltac:(done)) as X.
  rewrite X in Hq; [lia|]. rewrite (tokw nw G s i w I Hi f fr Hf Hpc). lia.
Qed.

(** A called task returns to its parent. *)
Lemma inv_call_ret l p j st0 frp m st k frp' t' s' :
  f_kind fr = KCall p j st0 -> stk s (w_stk w) = f :: l ->
  s_frames s !! p = Some frp -> f_rp frp = RCall m st k ->
  f_kind frp' = f_kind frp -> f_stk frp' = f_stk frp -> f_steals frp' = f_steals frp ->
  f_joins frp' = f_joins frp -> length (f_cells frp') = length (f_cells frp) ->
  f_rp frp' = RRun t' ->
  ncapt p (s_frames s) + match f_eptr frp' with Some _ => 1 | None => 0 end = b2n (f_eflag frp') ->
  run_scope nw frp' t' ->
  s_frames s' = <[p := frp']> (delete f (s_frames s)) ->
  s_workers s' = <[i := set_pc (PRun p) w]> (s_workers s) ->
  s_stacks s' = <[w_stk w := l]> (s_stacks s) ->
  s_nextf s' = s_nextf s -> s_nexts s' = s_nexts s ->
  inv nw G s'.
Proof using I Hi Hf Hpc Hr.
  intros Hk Hl Hp Hrp E1 E2 E3 E4 E5 E6 E7 Hs EF Ews Est Enf Ens.
  destruct (run_facts nw G s i w I Hi f fr Hf Hpc) as (P1 & P2 & N & S1 & S2 & L & D1 & D2).
  destruct fin_facts as (F1 & F2 & F3 & F4 & _).
  assert (Hpar : par (f_kind fr) = Some p) by (by rewrite Hk).
  destruct (below l p Hl Hpar) as (frp0 & Hp0 & Hlt & Hb). assert (frp0 = frp) as -> by congruence. clear Hp0.
  assert (Hne : p <> f) by lia.
  assert (Hp' : delete f (s_frames s) !! p = Some frp) by (by rewrite lookup_delete_ne).
  assert (Hsh := shape_lookup _ _ _ Hf).
  destruct (i_kid _ _ _ I f _ _ p frp Hsh Hpar Hp) as (K & _). rewrite Hk in K. cbn in K. destruct K as (K1 & K2 & K3).
  pose proof (i_node _ _ _ I p frp Hp) as Np. destruct Np as (N1 & N2 & N3 & N4 & N5). rewrite Hrp in N1, N2, N5.
  assert (Hcpq : forall q, ncapt q (s_frames s') = ncapt q (s_frames s)).
  { intros q. unfold ncapt. rewrite EF.
    pose proof (cntm_upd (is_capt q) _ _ _ frp' Hp') as X.
    pose proof (cntm_del (is_capt q) _ _ _ Hf) as Y. rewrite fin_capt in Y.
    assert (is_capt q frp' = false /\ is_capt q frp = false) as (Z1 & Z2) by (unfold is_capt; by rewrite E6, Hrp).
    rewrite Z1, Z2 in X. cbn in *. lia. }
  assert (Hcall1 : is_call p (f_kind fr, f_stk fr) = true).
  { unfold is_call. rewrite Hk. cbn. by rewrite bool_decide_eq_true_2. }
  eapply (inv_del nw G s s' i w (set_pc (PRun p) w) f fr l); try done.
  - rewrite EF. erewrite shape_upd; [|exact Hp'|done|done]. apply shape_del.
  - intros q fr' Hq Hfq X1 X2 X3 X4 X5.
    unfold wsub in X3 at 3. unfold wpend in X4 at 2 4. unfold wtok in X5 at 2 4. cbn in X3, X4, X5. rewrite Hpc in X4, X5. cbn in X4, X5.
    rewrite (eqn_ne f q) in X5 by done.
    assert (is_fork q (f_kind fr, f_stk fr) = false) as Y1 by (unfold is_fork; by rewrite Hk).
    rewrite Y1 in X1. cbn in X1.
    rewrite EF in Hfq. destruct (decide (q = p)) as [->|Hqp].
    + rewrite lookup_insert in Hfq. injection Hfq as <-. rewrite Hcall1 in X2. rewrite eqn_refl in X5. cbn in X2.
      unfold node_ok. rewrite E6, E4, E3. split_and!; try done; try lia.
    + rewrite lookup_insert_ne, lookup_delete_ne in Hfq by done.
      assert (is_call q (f_kind fr, f_stk fr) = false) as Y2.
      { unfold is_call. rewrite Hk. cbn. by rewrite bool_decide_eq_false_2. }
      rewrite Y2 in X2. cbn in X2. rewrite (eqn_ne p q) in X5 by done.
      pose proof (i_node _ _ _ I q fr' Hfq) as Nq.
      replace (nforks q (shape_of (s_frames s'))) with (nforks q (shape_of (s_frames s))) by lia.
      replace (ncalls q (shape_of (s_frames s'))) with (ncalls q (shape_of (s_frames s))) by lia.
      replace (sumw (wsub q) (s_workers s')) with (sumw (wsub q) (s_workers s)) by lia.
      replace (sumw (wpend q) (s_workers s')) with (sumw (wpend q) (s_workers s)) by lia.
      replace (sumw (wtok q) (s_workers s')) with (sumw (wtok q) (s_workers s)) by lia. done.
  - intros q Hq. unfold wtok, wsub. cbn. rewrite Hpc. cbn.
    rewrite (eqn_ne f q), (eqn_ne p q) by congruence. done.
  - pose proof (tokw nw G s i w I Hi f fr Hf Hpc) as X. unfold wtok in *. rewrite Hpc in X. cbn in *.
    rewrite eqn_refl in X. rewrite (eqn_ne p f) by done. lia.
  - intros c kc x q fq fq' Hc Hsc Hq Hfq Hfq' Kq.
    rewrite EF in Hfq'. destruct (decide (q = p)) as [->|Hqp].
    + rewrite lookup_insert in Hfq'. injection Hfq' as <-. assert (fq = frp) as -> by congruence.
      unfold kid_ok in *. rewrite E2, E3, E5, E6. destruct kc; cbn in *; try done.
      * exfalso. injection Hq as ->.
        assert (2 <= ncalls p (shape_of (s_frames s))); [|lia].
        eapply (cntm_two _ _ c _ f); [exact Hsc| |exact Hsh| |done]; [|done].
        unfold is_call. cbn. by rewrite bool_decide_eq_true_2.
      * tauto.
    + rewrite lookup_insert_ne in Hfq' by done. apply lookup_delete_Some in Hfq' as (_ & Hfq').
      congruence.
  - intros j0 wj Hj Hwj q Hq fr0 Hf0. rewrite EF.
    assert (q <> p).
    { intros ->. pose proof (sumw_ge (wtok p) _ _ _ Hwj). lia. }
    assert (q <> f).
    { intros ->. pose proof (tok_other _ _ _ f fr i j0 w wj I Hf Hi Hwj ltac:(done)) as X.
      rewrite X in Hq; [lia|]. rewrite (tokw nw G s i w I Hi f fr Hf Hpc). lia. }
    exists fr0. rewrite lookup_insert_ne, lookup_delete_ne by done. done.
  - destruct (i_wrk _ _ _ I i w Hi) as ((W0 & _) & _).
    assert (Hpw : wtok p w = 0). { pose proof (sumw_ge (wtok p) _ _ _ Hi). lia. }
    assert (Hpn : p ∉ w_deque w /\ p ∉ w_inbox w ++ w_batch w).
    { rewrite !occ_notin, occ_app. unfold wtok in Hpw. lia. }
    destruct Hpn as (Hpn1 & Hpn2).
    assert (HLD : links (delete f (s_frames s)) G (G f) (w_deque w)).
    { eapply links_mono; [..|exact L]; [|done]. intros q Hq. apply sig_agree_same.
      rewrite lookup_delete_ne; [done|]. intros ->. done. }
    rewrite EF. split; cbn.
    + intros q Hq. destruct (W0 q Hq) as (frq & Hfq & Hrq). exists frq.
      rewrite lookup_insert_ne, lookup_delete_ne by (intros ->; done). done.
    + exists frp'. rewrite lookup_insert. split; [done|]. rewrite E3, E2, E6.
      assert (HS1 : stk s' (w_stk w) = l) by (unfold stk; by rewrite Est, lookup_insert).
      rewrite HS1. split_and!; try done.
      * intros Hz. apply K2 in Hz. congruence.
      * intros Hz. destruct Hb as [(Hb & _)|(_ & ->)]; [|done]. exfalso. apply Hz, K2. congruence.
      * apply links_upd; [done|]. pose proof (i_ghost _ _ _ I f _ _ Hsh) as HG. rewrite Hk in HG.
        by rewrite <- HG.
Qed.

Lemma good_finish_fork p j st0 :
  f_kind fr = KFork p j st0 -> f_rp fr = RFinal ->
  good nw (match destroy w f fr s with
      | None => Undef
      | Some s' => Next (put_worker i (set_pc (PFinal p) w) s') [EvDestroy f]
      end).
Proof using I Hi Hf Hpc Hr.
  intros Hk Hrf. destruct fin_facts as (F1 & F2 & F3 & F4 & l & Hl). rewrite (destroy_eq l Hl).
  destruct (run_facts nw G s i w I Hi f fr Hf Hpc) as (P1 & P2 & N & S1 & S2 & L & D1 & D2).
  assert (Hpar : par (f_kind fr) = Some p) by (by rewrite Hk).
  destruct (below l p Hl Hpar) as (frp & Hp & Hlt & Hb).
  assert (Hne : p <> f) by lia.
  assert (Hsh := shape_lookup _ _ _ Hf).
  exists G. cbn.
  eapply (inv_del nw G s _ i w (set_pc (PFinal p) w) f fr l); try done.
  - cbn. apply shape_del.
  - intros q. unfold ncapt. cbn. pose proof (cntm_del (is_capt q) _ _ _ Hf) as Y. rewrite fin_capt in Y. cbn in Y. lia.
  - intros q fr' Hq Hfq X1 X2 X3 X4 X5. cbn in Hfq.
    rewrite lookup_delete_ne in Hfq by done.
    pose proof (i_node _ _ _ I q fr' Hfq) as Nq.
    set (nf' := nforks q (shape_of (s_frames (put_worker _ _ _)))) in *.
    set (nc' := ncalls q (shape_of (s_frames (put_worker _ _ _)))) in *.
    set (sb' := sumw (wsub q) (s_workers (put_worker _ _ _))) in *.
    set (pd' := sumw (wpend q) (s_workers (put_worker _ _ _))) in *.
    set (tk' := sumw (wtok q) (s_workers (put_worker _ _ _))) in *.
    set (sb := sumw (wsub q) (s_workers s)) in *.
    set (pd := sumw (wpend q) (s_workers s)) in *. set (tk := sumw (wtok q) (s_workers s)) in *.
    clearbody nf' nc' sb' pd' tk' sb pd tk.
    unfold wsub in X3. unfold wpend in X4. unfold wtok in X5. cbn in X3, X4, X5. rewrite Hpc in X4, X5. cbn in X4, X5.
    rewrite (eqn_ne f q) in X5 by done.
    assert (is_call q (f_kind fr, f_stk fr) = false) as Y1 by (unfold is_call; by rewrite Hk).
    assert (b2n (is_fork q (f_kind fr, f_stk fr)) = eqn p q) as Y2.
    { unfold is_fork, eqn. rewrite Hk. cbn. case_bool_decide; destruct (decide _); done. }
    rewrite Y1 in X2. rewrite Y2 in X1. cbn in X2.
    destruct Nq as (M1 & M2 & M3 & M4 & M5).
    assert (EE : nf' + sb' = nforks q (shape_of (s_frames s)) + sb) by lia.
    assert (EP : pd' = pd) by lia.
    unfold node_ok. rewrite EP. split_and!; try lia.
    destruct (f_rp fr'); rewrite ?EE; done.
  - intros q Hq. unfold wtok, wsub. cbn. rewrite Hpc. cbn.
    rewrite (eqn_ne f q), (eqn_ne p q) by congruence. done.
  - pose proof (tokw nw G s i w I Hi f fr Hf Hpc) as X. unfold wtok in *. rewrite Hpc in X. cbn in *.
    rewrite eqn_refl in X. lia.
  - unfold wsub. cbn. by rewrite (eqn_ne p f).
  - cbn. intros c kc x q fq fq' Hc Hsc Hq Hfq Hfq' Kq. apply lookup_delete_Some in Hfq' as (_ & Hfq'). congruence.
  - cbn. apply fin_sig. intros q Hq. apply sig_agree_same. by rewrite lookup_delete_ne.
  - destruct (i_wrk _ _ _ I i w Hi) as ((W0 & _) & _). cbn. split; cbn.
    + intros q Hq. destruct (W0 q Hq) as (frq & Hfq & Hrq). exists frq.
      rewrite lookup_delete_ne by (intros ->; done). done.
    + pose proof (i_ghost _ _ _ I f _ _ Hsh) as HG. rewrite Hk in HG. split.
      * exists j. rewrite F4. rewrite <- HG. eapply links_mono; [..|exact L]; [|done]. intros q Hq. apply sig_agree_same.
        rewrite lookup_delete_ne; [done|]. intros ->. done.
      * exists frp. rewrite lookup_delete_ne by done. split; [done|]. unfold stk. cbn. rewrite lookup_insert. cbn. done.
Qed.

Lemma good_root_destroy : f_kind fr = KRoot -> good nw (root_destroy i w f fr s).
Proof using I Hi Hf Hpc Hr.
  intros Hk. destruct fin_facts as (F1 & F2 & F3 & F4 & l & Hl). unfold root_destroy. rewrite (destroy_eq l Hl).
  destruct (run_facts nw G s i w I Hi f fr Hf Hpc) as (P1 & P2 & N & S1 & S2 & L & D1 & D2).
  assert (Hsh := shape_lookup _ _ _ Hf).
  assert (l = []) as ->.
  { destruct l as [|q l']; [done|]. exfalso.
    destruct (so_adj _ _ _ (i_stk _ _ _ I) (w_stk w) [] f q l' Hl) as (k & Hk' & Hp).
    rewrite Hsh in Hk'. injection Hk' as <- _. rewrite Hk in Hp. done. }
  pose proof (i_ghost _ _ _ I f _ _ Hsh) as HG. rewrite Hk in HG. rewrite HG in L.
  assert (Hd : w_deque w = []) by (destruct (w_deque w); [done|]; destruct L as (? & ? & ? & ? & _); done).
  unfold to_idle. rewrite Hd. unfold stk. cbn [s_stacks put_stack del_frame]. rewrite lookup_insert. cbn [default].
  exists G.
  eapply (inv_del nw G s _ i w (set_pc PIdle w) f fr []); try done.
  - cbn. apply shape_del.
  - intros q. unfold ncapt. cbn. pose proof (cntm_del (is_capt q) _ _ _ Hf) as Y. rewrite fin_capt in Y. cbn in Y. lia.
  - intros q fr' Hq Hfq X1 X2 X3 X4 X5. cbn in Hfq.
    rewrite lookup_delete_ne in Hfq by done.
    pose proof (i_node _ _ _ I q fr' Hfq) as Nq.
    set (nf' := nforks q (shape_of (s_frames (put_worker _ _ _)))) in *.
    set (nc' := ncalls q (shape_of (s_frames (put_worker _ _ _)))) in *.
    set (sb' := sumw (wsub q) (s_workers (put_worker _ _ _))) in *.
    set (pd' := sumw (wpend q) (s_workers (put_worker _ _ _))) in *.
    set (tk' := sumw (wtok q) (s_workers (put_worker _ _ _))) in *.
    set (sb := sumw (wsub q) (s_workers s)) in *.
    set (pd := sumw (wpend q) (s_workers s)) in *. set (tk := sumw (wtok q) (s_workers s)) in *.
    clearbody nf' nc' sb' pd' tk' sb pd tk.
    unfold wsub in X3. unfold wpend in X4. unfold wtok in X5. cbn in X3, X4, X5. rewrite Hpc in X4, X5. cbn in X4, X5.
    rewrite (eqn_ne f q) in X5 by done.
    assert (is_call q (f_kind fr, f_stk fr) = false) as Y1 by (unfold is_call; by rewrite Hk).
    assert (is_fork q (f_kind fr, f_stk fr) = false) as Y2 by (unfold is_fork; by rewrite Hk).
    rewrite Y1 in X2. rewrite Y2 in X1. cbn in X1, X2.
    replace nf' with (nforks q (shape_of (s_frames s))) by lia.
    replace nc' with (ncalls q (shape_of (s_frames s))) by lia.
    replace sb' with sb by lia. replace pd' with pd by lia. replace tk' with tk by lia. done.
  - intros q Hq. unfold wtok, wsub. cbn. rewrite Hpc. cbn.
    rewrite (eqn_ne f q) by congruence. done.
  - pose proof (tokw nw G s i w I Hi f fr Hf Hpc) as X. unfold wtok in *. rewrite Hpc in X. cbn in *.
    rewrite eqn_refl in X. lia.
  - cbn. intros c kc x q fq fq' Hc Hsc Hq Hfq Hfq' Kq. apply lookup_delete_Some in Hfq' as (_ & Hfq'). congruence.
  - cbn. apply fin_sig. intros q Hq. apply sig_agree_same. by rewrite lookup_delete_ne.
  - destruct (i_wrk _ _ _ I i w Hi) as ((W0 & _) & _). cbn. split; cbn.
    + intros q Hq. destruct (W0 q Hq) as (frq & Hfq & Hrq). exists frq.
      rewrite lookup_delete_ne by (intros ->; done). done.
    + split; [done|]. unfold stk. cbn. by rewrite lookup_insert.
Qed.

Lemma good_finish_call seen p j st0 :
  f_kind fr = KCall p j st0 -> f_rp fr = RFinal ->
  good nw (match destroy w f fr s with
      | None => Undef
      | Some s' =>
        match s_frames s' !! p with
        | Some frp =>
          match f_rp frp with
          | RCall m st k => call_resume seen i w p frp m st k s' [EvDestroy f; EvResume i p]
          | _ => Undef
          end
        | None => Undef
        end
      end).
Proof using I Hi Hf Hpc Hr.
  intros Hk Hrf. destruct fin_facts as (F1 & F2 & F3 & F4 & l & Hl). rewrite (destroy_eq l Hl).
  assert (Hpar : par (f_kind fr) = Some p) by (by rewrite Hk).
  destruct (below l p Hl Hpar) as (frp & Hp & Hlt & Hb).
  assert (Hne : p <> f) by lia.
  assert (Hsh := shape_lookup _ _ _ Hf).
  assert (Hp' : s_frames (put_stack (w_stk w) l (del_frame f s)) !! p = Some frp) by (cbn; by rewrite lookup_delete_ne).
  rewrite Hp'.
  pose proof (i_node _ _ _ I p frp Hp) as (N1 & N2 & N3 & N4 & N5).
  assert (Hnc : 1 <= ncalls p (shape_of (s_frames s))).
  { pose proof (kid_counts _ _ _ _ _ Hsh Hpar) as X. by rewrite Hk in X. }
  destruct (f_rp frp) as [t|m st k pre|m st k|k|d t|e| |] eqn:Hrp; try lia.
  destruct N5 as (N5 & N6 & n & x & (C1 & C2 & C3 & C4) & M2 & M3).
  assert (X : forall r frp' tr,
     (frp' = frp \/ exists e, f_eptr frp = Some e /\ frp' = set_exc false None frp) ->
     run_scope nw (set_rp (RRun (k r)) frp') (k r) ->
     good nw (Next (put_worker i (set_pc (PRun p) w) (put_frame p (set_rp (RRun (k r)) frp')
        (put_stack (w_stk w) l (del_frame f s)))) tr)).
  { intros r frp' tr Hfr' Hs. exists G.
    eapply (inv_call_ret l p j st0 frp m st k (set_rp (RRun (k r)) frp') (k r)); try done;
      try (destruct Hfr' as [-> |(e & _ & ->)]; done).
    destruct Hfr' as [-> |(e & Ee & ->)]; cbn; [done|]. rewrite Ee in N3. destruct (f_eflag frp); cbn in *; lia. }
  assert (HD : forall tr cl, good nw (Next (put_worker i (set_pc (PRun p) w) (put_frame p (set_rp (RRun (k (CDone cl))) frp)
        (put_stack (w_stk w) l (del_frame f s)))) tr)).
  { intros tr cl. apply X; [by left|]. exists n, (x || negb st). cbn. split_and!; try done.
    intros E. destruct (M3 E) as [-> |[-> | ?]]; [by left|left; by destruct x|by right]. }
  assert (HE : forall tr e, f_eptr frp = Some e -> good nw (Next (put_worker i (set_pc (PRun p) w) (put_frame p (set_rp (RRun (k (CExn e))) (set_exc false None frp))
        (put_stack (w_stk w) l (del_frame f s)))) tr)).
  { intros tr e Ee. apply X; [right; eauto|]. exists n, x. cbn. split_and!; try done. }
  assert (HB : forall tr, f_steals frp <> 0 -> good nw (Next (put_worker i (set_pc (PRun p) w) (put_frame p (set_rp (RRun (k (CExn EBeforeJoin))) frp)
        (put_stack (w_stk w) l (del_frame f s)))) tr)).
  { intros tr Hz. apply X; [by left|]. exists n, x. cbn. split_and!; try done. intros _. right. lia. }
  assert (HR : f_steals frp = 0 -> f_eflag frp = true -> exists e, f_eptr frp = Some e).
  { intros Hz Hfl. destruct (f_eptr frp) eqn:Ee; [eauto|]. exfalso.
    rewrite Hfl in N3. cbn in N3.
    assert (Hnf : nforks p (shape_of (s_frames s)) = 0) by lia.
    destruct (cntm_ex (is_capt p) (s_frames s)) as (c & fc & Hc & Hcap). { unfold ncapt in N3. lia. }
    unfold is_capt in Hcap. destruct (f_rp fc) eqn:Erc; try done. apply bool_decide_eq_true in Hcap.
    assert (Hcf : c <> f) by congruence.
    pose proof (shape_lookup _ _ _ Hc) as Hshc.
    destruct (f_kind fc) as [|pc jc sc|pc jc sc] eqn:Ekc; cbn in Hcap; try done; injection Hcap as ->.
    - assert (2 <= ncalls p (shape_of (s_frames s))); [|lia].
      eapply (cntm_two _ _ c _ f); [exact Hshc| |exact Hsh| |done].
      + unfold is_call. cbn. by rewrite bool_decide_eq_true_2.
      + unfold is_call. rewrite Hk. cbn. by rewrite bool_decide_eq_true_2.
    - pose proof (kid_counts _ _ _ _ p Hshc) as Y. cbn in Y. specialize (Y eq_refl). lia. }
  assert (Hreal : f_steals frp = 0 -> good nw
    (match unsafe_rethrow frp with
    | Some (Some e, fr') => Next (put_worker i (set_pc (PRun p) w) (put_frame p (set_rp (RRun (k (CExn e))) fr') (put_stack (w_stk w) l (del_frame f s)))) ([EvDestroy f; EvResume i p] ++ [EvEager p e])
    | Some (None, fr') => Next (put_worker i (set_pc (PRun p) w) (put_frame p (set_rp (RRun (k (CDone (fres_last (f_cells frp))))) fr') (put_stack (w_stk w) l (del_frame f s)))) ([EvDestroy f; EvResume i p] ++ [])
    | None => Undef
    end)).
  { intros Hz. unfold unsafe_rethrow. destruct (f_eflag frp) eqn:Efl; [|apply HD].
    destruct (HR Hz eq_refl) as (e & Ee). rewrite Ee. by apply HE. }
  unfold call_resume. destruct m; [apply HD| |].
  - destruct st; [|apply HD]. destruct (decide (f_steals frp = 0)) as [Hz|Hz]; [by apply Hreal|].
    destruct (f_eflag frp), seen; cbn [andb]; first [by apply HB|by apply HD].
  - destruct st; [|apply HD]. destruct (decide (f_steals frp = 0)) as [Hz|Hz]; [by apply Hreal|].
    exfalso. rewrite C2 in M2 by done. lia.
Qed.

Lemma good_finish seen : f_rp fr = RFinal -> good nw (finish seen i w f fr s).
Proof using I Hi Hf Hpc Hr.
  intros Hrf. destruct fin_facts as (F1 & F2 & F3 & _). unfold finish. rewrite decide_True by done.
  destruct (f_kind fr) as [|p j st|p j st] eqn:Hk.
  - eapply good_root_signal; done.
  - by eapply good_finish_call.
  - by eapply good_finish_fork.
Qed.
End fin.

(** ** A finished forked task looks for its parent *)

Lemma good_final p :
  w_pc w = PFinal p ->
  good nw (match w_deque w with
      | q :: d =>
        if decide (q = p) then
          Next (put_worker i (set_pc (PRun p) (set_deque d w)) s) [EvResume i p]
        else Undef
      | [] => Next (put_worker i (set_pc (PSub p) w) s) []
      end).
Proof using I Hi.
  intros Hpc. destruct (i_wrk _ _ _ I i w Hi) as ((W0 & W) & Wlt). rewrite Hpc in W.
  destruct W as ((j & L) & Hsub).
  assert (Hws : wsub p w = 1) by (unfold wsub; by rewrite Hpc, eqn_refl).
  destruct (w_deque w) as [|q d] eqn:Ed.
  - exists G. cbn. eapply (inv_w nw G s _ i w (set_pc (PSub p) w)); try done.
    + intros q. unfold wtok, wpend, wsub. cbn. by rewrite Hpc.
    + intros _. apply (own_keep nw G s i w I Hi); [done|]. unfold eff. by rewrite Hpc.
  - destruct L as (j' & x & fr & Ea & Hf & L1 & L2 & L3). injection Ea as -> <- <-. rewrite decide_True by done.
    destruct (steal_bound nw G s I q fr Hf) as (B1 & B2 & B3 & (m & st & k & pre & Er & Es)).
    { pose proof (sumw_ge (wpend q) _ _ _ Hi) as X. unfold wpend in X at 1. rewrite Ed in X. cbn in X. rewrite eqn_refl in X. lia. }
    pose proof (sumw_ge (wtok q) _ _ _ Hi) as T1. rewrite B3 in T1.
    exists G. cbn. eapply (inv_1 nw G s _ i w (set_pc (PRun q) (set_deque d w)) q fr fr); try done.
    + symmetry. by apply insert_id.
    + intros q' Hq. unfold wtok, wpend, wsub. cbn. rewrite Hpc, Ed. cbn. rewrite (eqn_ne q q') by done. split_and!; lia.
    + intros nf nc ncp nsb npd ntk nsb' npd' ntk' E1 E2 E3 E4 E5 E6 N X1 X2 X3 X4 X5 X6.
      rewrite B2 in E5. rewrite B3 in E6.
      unfold wsub, wpend, wtok in X1, X2, X3. cbn in X1, X2, X3. rewrite Hpc in X1, X2, X3. rewrite Ed in X2, X3. cbn in X1, X2, X3.
      rewrite eqn_refl in *.
      destruct N as (M1 & M2 & M3 & M4 & M5). unfold node_ok. rewrite Er in *.
      destruct M5 as (M5 & n & y & Y1 & Y2 & Y3 & Y4).
      split_and!; try done; try lia. exists n, y. split_and!; try done. left. lia.
    + by left.
    + split; cbn; [done|]. exists fr. rewrite Er. split_and!; try done.
      * intros Hz. by apply L1.
      * intros Hz. destruct Hsub as (frp & Hp & Hb). assert (frp = fr) as -> by congruence.
        destruct Hb as [(Hb & _)|(_ & Hb)]; [|done]. exfalso. apply Hz, L1. done.
    + intros _. apply (own_keep nw G s i w I Hi); [done|]. unfold eff. by rewrite Hpc.
Qed.

Lemma good_sub p : w_pc w = PSub p -> good nw (final_sub i w p s).
Proof using I Hi.
  intros Hpc. unfold final_sub. destruct (i_wrk _ _ _ I i w Hi) as ((W0 & W) & Wlt). rewrite Hpc in W.
  destruct W as (Ed & frp & Hp & Hb). rewrite Hp.
  assert (Hsame : same_stacklet s p frp w = Some (bool_decide (f_stk frp = w_stk w))).
  { unfold same_stacklet. destruct Hb as [(E & l & Hl)|(E & Hl)].
    - rewrite decide_True by done. rewrite Hl, decide_True by done. by rewrite bool_decide_eq_true_2.
    - rewrite decide_False by done. by rewrite bool_decide_eq_false_2. }
  rewrite Hsame.
  pose proof (i_node _ _ _ I p frp Hp) as N. pose proof N as (N1 & N2 & N3 & N4 & N5).
  assert (Hsw : wsub p w = 1) by (unfold wsub; by rewrite Hpc, eqn_refl).
  pose proof (sumw_ge (wsub p) _ _ _ Hi) as Hge. rewrite Hsw in Hge.
  destruct (decide (f_joins frp = 1)) as [E1|E1].
  - (* the last child *)
    assert (HJ : exists k, f_rp frp = RJoin k).
    { destruct (f_rp frp) as [t|m st k pre|m st k|k|d t|e| |]; eauto; exfalso;
      unfold u16max, run_scope, fork_scope, call_scope, max_forks in *.
      - destruct N5 as (N5 & _ & n & x & _ & M1 & M2 & _). lia.
      - destruct N5 as (N5 & n & x & (M1 & _) & M2 & _ & M3). lia.
      - destruct N5 as (N5 & _ & n & x & (M1 & _) & M2 & _). lia.
      - destruct N5 as (N5 & _ & n & x & _ & M1 & M2 & _). lia.
      - lia.
      - lia.
      - lia. }
    destruct HJ as (k & Hrp). rewrite Hrp in *. destruct N5 as (N5 & N6 & N7 & N8 & N9 & N10).
    assert (Hst : (if bool_decide (f_stk frp = w_stk w) then [] else stk s (w_stk w)) = []).
    { destruct Hb as [(E & _)|(E & Hl)]; [by rewrite bool_decide_eq_true_2|by rewrite bool_decide_eq_false_2]. }
    rewrite Hst.
    eapply (good_join_resume nw G s i w I Hi p frp Hp k); try done; try (by right); lia.
  - assert (E2 : 1 <= f_joins frp).
    { destruct (f_rp frp) as [t|m st k pre|m st k|k|d t|e| |]; unfold u16max, run_scope, fork_scope, call_scope, max_forks in *.
      - destruct N5 as (N5 & _ & n & x & _ & M1 & M2 & _). lia.
      - destruct N5 as (N5 & n & x & (M1 & _) & M2 & _ & M3). lia.
      - destruct N5 as (N5 & _ & n & x & (M1 & _) & M2 & _). lia.
      - lia.
      - destruct N5 as (N5 & _ & n & x & _ & M1 & M2 & _). lia.
      - lia.
      - lia.
      - lia. }
    assert (E3 : u16sub (f_joins frp) 1 = f_joins frp - 1) by (apply u16sub_small; lia).
    set (frp' := set_joins (u16sub (f_joins frp) 1) frp).
    assert (X : forall w' s', w_pc w' = PIdle /\ f_stk frp <> w_stk w \/ w_pc w' = PLoseRel ->
      w_deque w' = [] -> w_inbox w' = w_inbox w -> w_batch w' = w_batch w -> w_stk w' = w_stk w ->
      s_frames s' = <[p := frp']> (s_frames s) -> s_workers s' = <[i := w']> (s_workers s) ->
      s_stacks s' = s_stacks s -> s_nextf s' = s_nextf s -> s_nexts s' = s_nexts s -> inv nw G s').
    { intros w' s' Hpc' Ed' Ein Eb Ews EF EW ES Enf Ens.
      assert (Hptok : pc_tok (w_pc w') = [] /\ (forall q, wsub q w' = 0) /\ forall q, wpend q w' = wpend q w).
      { unfold wsub, wpend. rewrite Ed', Ed, Hpc. destruct Hpc' as [(-> & _)| ->]; done. }
      destruct Hptok as (Y1 & Y2 & Y2').
      assert (Y3 : forall q, wtok q w' = wtok q w).
      { intros q. unfold wtok. rewrite Y1, Ed', Ed, Ein, Eb, Hpc. done. }
      assert (HSA : forall q, sig_agree (s_frames s) (s_frames s') q).
      { intros q fr0 Hf0. rewrite EF. destruct (decide (q = p)) as [->|].
        - rewrite lookup_insert. exists frp'. split; [done|]. unfold sig, frp'. cbn. congruence.
        - rewrite lookup_insert_ne by done. eauto. }
      eapply (inv_1 nw G s s' i w w' p frp frp'); try done.
      - lia.
      - intros q Hq. rewrite Y2, Y2', Y3. unfold wsub. rewrite Hpc. by rewrite (eqn_ne p q).
      - intros nf nc ncp nsb npd ntk nsb' npd' ntk' F1 F2 F3 F4 F5 F6 _ X1 X2 X3 X4 X5 X6.
        rewrite Y3 in X3. rewrite Y2 in X1. rewrite Y2' in X2. rewrite Hsw in X1. rewrite <- F1, <- F2, <- F3, <- F4, <- F5, <- F6 in *.
        replace npd' with npd by lia. replace ntk' with ntk by lia.
        unfold node_ok, frp'. cbn. rewrite E3. split_and!; try done; [lia|].
        destruct (f_rp frp) as [t|m st k pre|m st k|k|d t|e| |].
        + destruct N5 as (N5 & N6 & N7). split_and!; [lia|done|done].
        + destruct N5 as (N5 & N6). split; [lia|done].
        + destruct N5 as (N5 & N6 & N7). split_and!; [lia|done|done].
        + destruct N5 as (N5 & N6 & N7). split_and!; [lia|lia|naive_solver..].
        + destruct N5 as (N5 & N6 & N7). split_and!; [lia|done|done].
        + lia.
        + lia.
        + lia.
      - by left.
      - split.
        + intros q Hq. rewrite Ein, Eb in Hq. destruct (W0 q Hq) as (frq & Hq1 & Hq2).
          destruct (HSA q _ Hq1) as (frq' & Hq' & Hs). injection Hs as Z1 Z2 Z3 Z4 Z5.
          exists frq'. rewrite Z1, Z3, Z5. done.
        + destruct Hpc' as [(-> & Hns)| ->]; [|done]. split; [done|]. rewrite Ews.
          destruct Hb as [(Hb & _)|(_ & Hb)]; done.
      - by rewrite Ews, Ens.
      - intros _. apply (own_keep nw G s i w I Hi); [done|]. unfold eff. by rewrite Hpc. }
    destruct Hb as [(Hb & _)|(Hb & Hl)].
    + rewrite bool_decide_eq_true_2 by done. exists G.
      eapply (X (set_pc PLoseRel w)); try done. by right.
    + rewrite bool_decide_eq_false_2 by done. unfold to_idle. rewrite Ed.
      change (stk (put_frame p frp' s)) with (stk s). rewrite Hl. exists G.
      eapply (X (set_pc PIdle w)); try done. by left.
Qed.
End cases.
