(** * Preservation of the invariant: joins, context switches, termination of
    tasks, steals and submissions; the main theorem. *)

From stdpp Require Import prelude gmap list.
From Coq Require Import NArith Lia.
From Verif Require Import RuntimeModel RuntimeSpec RuntimeInv RuntimeStep RuntimeStep2 RuntimeStep3
  RuntimeStep4 RuntimeStep5.
Local Open Scope N_scope.

Section cases.
Context (nw : nat) (G : ghost) (s : state) (i : nat) (w : worker).
Hypothesis (I : inv nw G s) (Hi : s_workers s !! i = Some w).
Context (f : N) (fr : frame).
Hypothesis (Hf : s_frames s !! f = Some fr).

(** ** A join completes *)

Definition at_join (k : list cell -> option exn -> task) : Prop :=
  ((w_pc w = PRun f \/ w_pc w = PJSusp f) /\ f_rp fr = RRun (Join k)) \/
  (w_pc w = PSub f /\ f_rp fr = RJoin k).

Lemma join_ok k w' fr' t' s' :
  at_join k ->
  nforks f (shape_of (s_frames s)) = 0 ->
  sumw (wsub f) (s_workers s) = wsub f w ->
  w_pc w' = PRun f -> w_deque w' = w_deque w -> w_inbox w' = w_inbox w -> w_batch w' = w_batch w ->
  w_stk w' = f_stk fr ->
  f_kind fr' = f_kind fr -> f_stk fr' = f_stk fr -> f_steals fr' = 0 -> f_joins fr' = u16max ->
  f_eflag fr' = false -> f_eptr fr' = None ->
  f_rp fr' = RRun t' -> scoped nw 0 false t' ->
  s_frames s' = <[f := fr']> (s_frames s) -> s_workers s' = <[i := w']> (s_workers s) ->
  s_stacks s' = s_stacks s -> s_nextf s' = s_nextf s -> s_nexts s' = s_nexts s ->
  inv nw G s'.
Proof using I Hi Hf.
  intros Hj Hnf Hsb Epc Ed Ein Eb Ew Ek Es Est Ejn Eef Eep Erp Hsc EF Ews ES Enf Ens.
  pose proof (i_node _ _ _ I f fr Hf) as N.
  assert (Hnc : ncalls f (shape_of (s_frames s)) = 0).
  { destruct N as (_ & N2 & _). destruct Hj as [(_ & Hr)|(_ & Hr)]; rewrite Hr in N2; done. }
  pose proof (childless_capt _ _ Hnf Hnc) as Hcp.
  destruct (childless_top _ _ _ _ _ I Hf Hnf Hnc) as (l & Hl).
  pose proof (no_kids _ _ Hnf Hnc) as Hnk.
  destruct (i_wrk _ _ _ I i w Hi) as ((W0 & W) & Wlt).
  assert (Htk : (0 < wtok f w /\ wtok f w = 1 /\ sumw (wtok f) (s_workers s) = 1 /\ sumw (wpend f) (s_workers s) = 0 /\ wpend f w = 0 /\ wsub f w = 0) \/
                (sumw (wtok f) (s_workers s) = 0 /\ wtok f w = 0 /\ w_deque w = [] /\ wpend f w = 0 /\ sumw (wpend f) (s_workers s) = 0)).
  { destruct Hj as [(Hpc & Hr)|(Hpc & Hr)].
    - left. destruct (pend_run _ _ _ _ _ f I Hi Hpc) as (_ & _ & P1 & P2).
      pose proof (sumw_ge (wtok f) _ _ _ Hi) as X. rewrite P2 in X.
      pose proof (sumw_ge (wpend f) _ _ _ Hi) as Y. rewrite P1 in Y.
      assert (1 <= wtok f w).
      { unfold wtok. destruct Hpc as [-> | ->]; cbn; rewrite eqn_refl; lia. }
      split_and!; try done; try lia. unfold wsub. destruct Hpc as [-> | ->]; done.
    - right. destruct N as (N1 & _ & _ & _ & N5). rewrite Hr in N1, N5. rewrite Hpc in W.
      pose proof (sumw_ge (wtok f) _ _ _ Hi) as X. pose proof (wpend_le_wtok f w).
      split_and!; try lia. apply W. }
  assert (Hoth : forall j wj, j <> i -> s_workers s !! j = Some wj -> eff wj = true -> w_stk w' <> w_stk wj).
  { intros j wj Hji Hj' Hej E. rewrite Ew in E. rewrite E in Hl.
    destruct (owner_top _ _ _ _ _ _ _ I Hj' Hej Hl) as [(Hpj & _)|Hsj].
    - assert (1 <= wtok f wj). { unfold wtok. rewrite Hpj. cbn. rewrite eqn_refl. lia. }
      destruct Htk as [(X1 & X2 & X3 & _)|(X1 & _)].
      + pose proof (sumw_ge2 (wtok f) _ _ _ _ _ (not_eq_sym Hji) Hi Hj'). lia.
      + pose proof (sumw_ge (wtok f) _ _ _ Hj'). lia.
    - pose proof (sumw_ge2 (wsub f) _ _ _ _ _ (not_eq_sym Hji) Hi Hj'). lia. }
  assert (Hnot : f ∉ w_deque w /\ f ∉ w_inbox w ++ w_batch w).
  { rewrite !occ_notin, occ_app. destruct Htk as [(_ & X2 & _)|(_ & X2 & _)].
    - unfold wtok in X2. destruct Hj as [([Hpc|Hpc] & Hr)|(Hpc & Hr)]; rewrite Hpc in X2; cbn in X2;
        rewrite ?eqn_refl in X2; try lia.
      rewrite Hpc in W. destruct W as (Wd & _). exfalso.
      destruct N as (N1 & _). rewrite Hr in N1. pose proof (sumw_ge (wtok f) _ _ _ Hi) as X.
      unfold wtok at 1 in X. rewrite Hpc in X. cbn in X. lia.
    - unfold wtok in X2. lia. }
  destruct Hnot as (Hn1 & Hn2).
  assert (Hq : forall q, q <> f -> wtok q w' = wtok q w /\ wpend q w' = wpend q w /\ wsub q w' = wsub q w).
  { intros q Hq. unfold wtok, wpend, wsub. rewrite Epc, Ed, Ein, Eb. cbn. rewrite (eqn_ne f q) by done.
    destruct Hj as [([Hpc|Hpc] & _)|(Hpc & _)]; rewrite Hpc; cbn; rewrite ?(eqn_ne f q) by done; done. }
  assert (Hw' : wsub f w' = 0 /\ wpend f w' = wpend f w /\ wtok f w' = 1).
  { unfold wtok, wpend, wsub. rewrite Epc, Ed, Ein, Eb. cbn. rewrite eqn_refl.
    rewrite !occ_notin, occ_app in *. split_and!; try lia.
    destruct Hj as [([Hpc|Hpc] & _)|(Hpc & _)]; rewrite Hpc; lia. }
  destruct Hw' as (V1 & V2 & V3).
  eapply (inv_1 nw G s s' i w w' f fr fr'); try done.
  - lia.
  - intros p. unfold is_capt. rewrite Erp. destruct Hj as [(_ & ->)|(_ & ->)]; done.
  - intros nf nc ncp nsb npd ntk nsb' npd' ntk' -> -> -> -> -> -> _ X1 X2 X3 X4 X5 X6.
    unfold node_ok. rewrite Erp, Ejn, Eef, Eep, Est, Hnf, Hnc, Hcp.
    split_and!; try done; try lia.
    exists 0, false. unfold max_forks. rewrite Est, Eef. split_and!; try done; lia.
  - intros c k0 x Hc Hp. by destruct (Hnk _ _ _ Hc).
  - right. destruct Htk as [(X & _)|(X & _)]; auto.
  - rewrite EF. split; [rewrite Ein, Eb; by apply inbox_upd|]. rewrite Epc. exists fr'.
    rewrite lookup_insert. rewrite Es, Est, Erp, Ed. split_and!; try done.
    apply links_upd; [done|].
    destruct Hj as [([Hpc|Hpc] & _)|(Hpc & _)]; rewrite Hpc in W.
    + destruct W as (fr0 & _ & _ & _ & ? & _). done.
    + destruct W as (fr0 & k0 & _ & _ & _ & _ & ?). done.
    + destruct W as (-> & _). done.
  - rewrite Ens, Ew. destruct (decide (s_nexts s <= f_stk fr)) as [Hc|]; [|lia].
    rewrite (so_fresh _ _ _ (i_stk _ _ _ I) _ Hc) in Hl. done.
Qed.

Lemma good_join_resume k w2 fr2 s2 tr :
  at_join k -> (forall cs r, scoped nw 0 false (k cs r)) ->
  nforks f (shape_of (s_frames s)) = 0 ->
  sumw (wsub f) (s_workers s) = wsub f w ->
  w_deque w2 = w_deque w -> w_inbox w2 = w_inbox w -> w_batch w2 = w_batch w ->
  w_stk w2 = f_stk fr ->
  f_kind fr2 = f_kind fr -> f_stk fr2 = f_stk fr -> f_steals fr2 = 0 -> f_joins fr2 = u16max ->
  f_eflag fr2 = f_eflag fr -> f_eptr fr2 = f_eptr fr ->
  (s_frames s2 = s_frames s \/ s_frames s2 = <[f := fr2]> (s_frames s)) ->
  (s_workers s2 = s_workers s \/ s_workers s2 = <[i := w2]> (s_workers s)) ->
  s_stacks s2 = s_stacks s -> s_nextf s2 = s_nextf s -> s_nexts s2 = s_nexts s ->
  good nw (join_resume i w2 f fr2 k s2 tr).
Proof using I Hi Hf.
  intros Hj Hsc Hnf Hsb Ed Ein Eb Ew Ek Es Est Ejn Eef Eep EF Ews ES Enf Ens.
  pose proof (i_node _ _ _ I f fr Hf) as N.
  assert (Hnc : ncalls f (shape_of (s_frames s)) = 0).
  { destruct N as (_ & N2 & _). destruct Hj as [(_ & Hr)|(_ & Hr)]; rewrite Hr in N2; done. }
  destruct (childless_top _ _ _ _ _ I Hf Hnf Hnc) as (l & Hl).
  unfold join_resume. rewrite decide_True by done.
  assert (same_stacklet s2 f fr2 w2 = Some true) as ->.
  { unfold same_stacklet. rewrite decide_True by congruence. rewrite (stk_same s s2), Ew, Hl by done.
    by rewrite decide_True. }
  assert (X : forall fr3 r tr', f_kind fr3 = f_kind fr -> f_stk fr3 = f_stk fr -> f_steals fr3 = 0 -> f_joins fr3 = u16max ->
     f_eflag fr3 = false -> f_eptr fr3 = None ->
     good nw (Next (put_worker i (set_pc (PRun f) w2)
               (put_frame f (set_rp (RRun (k (f_cells fr2) r)) fr3) s2)) tr')).
  { intros fr3 r tr' F1 F2 F3 F4 F5 F6. exists G.
    eapply (join_ok k (set_pc (PRun f) w2) (set_rp (RRun (k (f_cells fr2) r)) fr3)); try done.
    - cbn. destruct EF as [-> | ->]; [done|]. by rewrite insert_insert.
    - cbn. destruct Ews as [-> | ->]; [done|]. by rewrite list_insert_insert. }
  assert (HR : unsafe_rethrow fr2 = Some (None, fr2) /\ f_eflag fr2 = false /\ f_eptr fr2 = None \/
     exists e, unsafe_rethrow fr2 = Some (Some e, set_exc false None fr2)).
  { destruct (rethrow_defined nw G s I f fr Hf Hnf Hnc) as [(E1 & E2 & _)|(e & E1 & E2 & _)];
      unfold unsafe_rethrow; rewrite Eef, Eep, E1, ?E2; eauto. }
  destruct HR as [(-> & E1 & E2)|(e & ->)]; apply X; done.
Qed.

Lemma good_take_join k fr1 tr :
  at_join k -> (forall cs r, scoped nw 0 false (k cs r)) ->
  (w_pc w = PRun f \/ w_pc w = PJSusp f) ->
  nforks f (shape_of (s_frames s)) = 0 -> sumw (wsub f) (s_workers s) = 0 ->
  f_steals fr <> 0 -> stk s (w_stk w) = [] ->
  f_kind fr1 = f_kind fr -> f_stk fr1 = f_stk fr -> f_steals fr1 = f_steals fr ->
  f_eflag fr1 = f_eflag fr -> f_eptr fr1 = f_eptr fr ->
  good nw (take_stack_join_resume i w f fr1 k s tr).
Proof using I Hi Hf.
  intros Hj Hsc Hpc Hnf Hsb Hst Hstk E1 E2 E3 E4 E5.
  unfold take_stack_join_resume. rewrite decide_False by congruence. rewrite Hstk.
  eapply good_join_resume; try done; try (by right).
  rewrite Hsb. unfold wsub. destruct Hpc as [-> | ->]; done.
Qed.

Lemma join_scoped k : at_join k -> forall cs r, scoped nw 0 false (k cs r).
Proof using I Hf.
  intros Hj. pose proof (i_node _ _ _ I f fr Hf) as (_ & _ & _ & _ & N).
  destruct Hj as [(_ & Hr)|(_ & Hr)]; rewrite Hr in N.
  - destruct N as (_ & _ & n & x & Hs & _). by inversion Hs.
  - apply N.
Qed.

Lemma good_wait k :
  w_pc w = PRun f -> f_rp fr = RRun (Join k) -> f_steals fr <> 0 ->
  good nw (Next (put_worker i (set_pc (PJSusp f) w) s) []).
Proof using I Hi Hf.
  intros Hpc Hr Hz.
  destruct (run_facts nw G s i w I Hi f fr Hf Hpc) as (P1 & P2 & N & S1 & S2 & L & D1 & D2).
  exists G. cbn. eapply (inv_w nw G s _ i w (set_pc (PJSusp f) w)); try done.
  - intros q. unfold wtok, wpend, wsub. cbn. by rewrite Hpc.
  - destruct (i_wrk _ _ _ I i w Hi) as ((W0 & _) & _). split; [done|]. cbn.
    exists fr, k. split_and!; try done. by apply S2.
  - cbn. by eapply wlt.
  - intros _. apply (own_keep nw G s i w I Hi); [done|]. unfold eff. by rewrite Hpc.
Qed.

Lemma good_join k :
  w_pc w = PRun f -> f_rp fr = RRun (Join k) ->
  good nw (if decide (f_steals fr = 0) then join_resume i w f fr k s []
    else if decide (f_steals fr = u16max - f_joins fr) then take_stack_join_resume i w f fr k s []
    else Next (put_worker i (set_pc (PJSusp f) w) s) []).
Proof using I Hi Hf.
  intros Hpc Hr.
  assert (Hj : at_join k) by (left; auto).
  destruct (run_facts nw G s i w I Hi f fr Hf Hpc) as (P1 & P2 & N & S1 & S2 & L & D1 & D2).
  destruct (node_run _ _ _ _ _ _ _ _ _ N (or_introl Hr)) as (N1 & _ & N2 & _ & N3 & N4 & N5).
  destruct (decide (f_steals fr = 0)) as [Hz|Hz].
  - destruct (unstolen_childless _ _ _ _ _ _ _ N eq_refl Hz) as (M1 & M2 & M3 & M4).
    eapply good_join_resume; try done; try (by left).
    + by apply join_scoped.
    + rewrite M3. unfold wsub. by rewrite Hpc.
    + by apply S1.
  - destruct (decide (f_steals fr = u16max - f_joins fr)) as [Hw|Hw].
    + eapply good_take_join; try done; try lia.
      * by apply join_scoped.
      * by left.
      * by apply S2.
    + by eapply good_wait.
Qed.

Lemma u16sub_small a b : b <= a -> a <= u16max -> u16sub a b = a - b.
Proof using.
  intros. unfold u16sub, u16mod, u16max in *.
  replace (a + 65536 - b) with ((a - b) + 1 * 65536) by lia.
  rewrite N.mod_add by done. apply N.mod_small. lia.
Qed.

Lemma good_join_suspend : w_pc w = PJSusp f -> good nw (join_suspend i w f fr s).
Proof using I Hi Hf.
  intros Hpc. destruct (i_wrk _ _ _ I i w Hi) as ((W0 & W) & Wlt). rewrite Hpc in W.
  destruct W as (fr0 & k & Hf0 & Hr & Hz & Hstk & L). assert (fr0 = fr) as -> by congruence. clear Hf0.
  unfold join_suspend. rewrite Hr.
  assert (Hj : at_join k) by (left; auto).
  destruct (pend_run _ _ _ _ _ f I Hi (or_intror Hpc)) as (fr0 & Hf0 & P1 & P2).
  assert (fr0 = fr) as -> by congruence. clear Hf0.
  pose proof (i_node _ _ _ I f fr Hf) as N. rewrite P1, P2 in N.
  destruct (node_run _ _ _ _ _ _ _ _ _ N (or_introl Hr)) as (N1 & _ & N2 & _ & N3 & N4 & N5).
  destruct (decide (f_steals fr = u16max - f_joins fr)) as [Hw|Hw].
  - eapply good_take_join; try done; try lia.
    + by apply join_scoped.
    + by right.
  - destruct N5 as (n & x & M1 & M2 & M3 & M4).
    assert (EJ : u16sub (f_joins fr) (u16max - f_steals fr) =
        nforks f (shape_of (s_frames s)) + sumw (wsub f) (s_workers s)).
    { rewrite u16sub_small by lia. unfold max_forks, u16max in *. lia. }
    pose proof (sumw_ge (wtok f) _ _ _ Hi) as X. rewrite P2 in X.
    assert (X' : wtok f w = 1).
    { assert (1 <= wtok f w); [|lia]. unfold wtok. rewrite Hpc. cbn. rewrite eqn_refl. lia. }
    assert (Hnot : f ∉ w_deque w /\ f ∉ w_inbox w ++ w_batch w).
    { rewrite !occ_notin, occ_app. unfold wtok in X'. rewrite Hpc in X'. cbn in X'. rewrite eqn_refl in X'. lia. }
    destruct Hnot as (Hn1 & Hn2).
    exists G. cbn. set (fr' := set_rp _ _).
    eapply (inv_1 nw G s _ i w (set_pc PSelf w) f fr fr'); try done.
    + intros p. unfold is_capt, fr'. cbn. by rewrite Hr.
    + intros q Hq. unfold wtok, wpend, wsub. cbn. rewrite Hpc. cbn. rewrite (eqn_ne f q) by done. done.
    + intros nf nc ncp nsb npd ntk nsb' npd' ntk' E1 E2 E3 E4 E5 E6 _ X1 X2 X3 X4 X5 X6.
      rewrite P1 in E5. rewrite P2 in E6.
      unfold wsub, wpend, wtok in X1, X2, X3. cbn in X1, X2, X3. rewrite Hpc in X1, X2, X3. cbn in X1, X2, X3.
      rewrite eqn_refl in X3. rewrite <- E1, <- E4 in *. rewrite <- E2, <- E3 in *.
      assert (nf + nsb <= u16max) by (unfold max_forks, u16max in *; lia).
      unfold node_ok, fr'. cbn. rewrite EJ. split_and!; try done; try lia.
      apply join_scoped; done.
    + intros c k0 x0 Hc Hp K. unfold kid_ok in *. cbn. rewrite Hr in K. destruct k0; cbn in *; done.
    + right. left. lia.
    + split; [by apply inbox_upd|]. cbn. split; [|done]. exists (G f). by apply links_upd.
    + intros _. apply (own_keep nw G s i w I Hi); [done|]. unfold eff. by rewrite Hpc.
Qed.

(** ** Explicit rescheduling *)

Lemma good_switch sk d k :
  w_pc w = PRun f -> f_rp fr = RRun (Switch sk d k) ->
  good nw (match same_stacklet s f fr w, s_workers s !! d with
      | Some same, Some _ =>
        if decide (same = bool_decide (f_steals fr = 0)) then
          let s1 := put_worker i (set_pc (PSwRel same) w) (put_frame f (set_rp (RSwitched d k) fr) s) in
          match s_workers s1 !! d with
          | Some wd => Next (put_worker d (set_inbox (w_inbox wd ++ [f]) wd) s1) [EvSwitch f d]
          | None => Undef
          end
        else Undef
      | _, _ => Undef
      end).
Proof using I Hi Hf.
  intros Hpc Hr.
  destruct (run_facts nw G s i w I Hi f fr Hf Hpc) as (P1 & P2 & N & S1 & S2 & L & D1 & D2).
  destruct (node_run _ _ _ _ _ _ _ _ _ N (or_introl Hr)) as (N1 & _ & N2 & _ & N3 & N4 & n & x & Hs & H1 & H2 & H3).
  assert (Hd : (d < nw)%nat) by (by inversion Hs). assert (Hk : scoped nw n x k) by (by inversion Hs).
  assert (Hi' := Hi). apply lookup_lt_Some in Hi'.
  destruct (lookup_lt_is_Some_2 (s_workers s) d) as (v & Hv). { by rewrite (i_len _ _ _ I). }
  assert (Hsame : same_stacklet s f fr w = Some (bool_decide (f_steals fr = 0))).
  { unfold same_stacklet. destruct (decide (f_steals fr = 0)) as [Hz|Hz].
    - destruct (S1 Hz) as (E & l & Hl). rewrite decide_True by done. rewrite Hl, decide_True by done.
      by rewrite bool_decide_eq_true_2.
    - destruct (S2 Hz) as (E & E'). rewrite decide_False by done. by rewrite bool_decide_eq_false_2. }
  rewrite Hsame, Hv, decide_True by done. cbn zeta. cbn [s_workers put_worker put_frame].
  set (b := bool_decide _). set (fr' := set_rp (RSwitched d k) fr).
  destruct (i_wrk _ _ _ I i w Hi) as ((W0 & _) & Wlt).
  pose proof (tokw nw G s i w I Hi f fr Hf Hpc) as Htw.
  assert (Hnode : node_ok nw fr' (nforks f (shape_of (s_frames s))) (ncalls f (shape_of (s_frames s)))
      (ncapt f (s_frames s)) (sumw (wsub f) (s_workers s)) 0 1).
  { unfold node_ok, fr'. cbn. split_and!; try done. exists n, x. done. }
  assert (Hkid : forall c k0 x, shape_of (s_frames s) !! c = Some (k0, x) -> par k0 = Some f ->
    kid_ok fr (k0, x) -> kid_ok fr' (k0, x)).
  { intros c k0 x0 Hc Hp K. unfold kid_ok in *. cbn. rewrite Hr in K. destruct k0; cbn in *; done. }
  assert (Hcp : forall p, is_capt p fr' = is_capt p fr).
  { intros p. unfold is_capt, fr'. cbn. by rewrite Hr. }
  assert (Hinb : forall l, forall q, q ∈ l ++ [f] ->
     (q ∈ l -> exists fr0, <[f := fr']> (s_frames s) !! q = Some fr0 /\
      match f_rp fr0 with RSwitched d' _ => d' = d | RRun _ => f_kind fr0 = KRoot /\ f_steals fr0 = 0 | _ => False end) ->
     exists fr0, <[f := fr']> (s_frames s) !! q = Some fr0 /\
      match f_rp fr0 with RSwitched d' _ => d' = d | RRun _ => f_kind fr0 = KRoot /\ f_steals fr0 = 0 | _ => False end).
  { intros l q Hq HX. apply elem_of_app in Hq as [Hq|Hq]; [auto|].
    apply elem_of_list_singleton in Hq as ->. exists fr'. by rewrite lookup_insert. }
  assert (Hpcok : (exists a, links (<[f := fr']> (s_frames s)) G a (w_deque w)) /\ (b = false -> stk s (w_stk w) = [])).
  { split; [exists (G f); by apply links_upd|]. intros Hb. apply bool_decide_eq_false in Hb. by apply S2. }
  destruct (decide (d = i)) as [->|Hdi].
  - rewrite list_lookup_insert by done. exists G. cbn.
    eapply (inv_1 nw G s _ i w (set_inbox (w_inbox w ++ [f]) (set_pc (PSwRel b) w)) f fr fr'); try done.
    + cbn. by rewrite list_insert_insert.
    + intros q Hq. unfold wtok, wpend, wsub. cbn. rewrite Hpc. cbn. rewrite occ_app. cbn.
      rewrite (eqn_ne f q) by done. split_and!; lia.
    + intros nf nc ncp nsb npd ntk nsb' npd' ntk' E1 E2 E3 E4 E5 E6 _ X1 X2 X3 X4 X5 X6.
      rewrite P1 in E5. rewrite P2 in E6.
      unfold wsub, wpend, wtok in X1, X2, X3. cbn in X1, X2, X3. rewrite Hpc in X1, X2, X3. rewrite occ_app in X3. cbn in X1, X2, X3.
      rewrite eqn_refl in X3.
      replace nsb' with nsb by lia. replace npd' with 0 by lia. replace ntk' with 1 by lia.
      rewrite E1, E2, E3, E4. done.
    + right. left. lia.
    + split; cbn; [|done]. intros q Hq. rewrite <- app_assoc in Hq.
      apply (Hinb (w_inbox w ++ w_batch w)). { set_solver. }
      intros Hq'. eapply inbox_upd; eauto.
    + intros _. apply (own_keep nw G s i w I Hi); [done|]. unfold eff. by rewrite Hpc.
  - rewrite list_lookup_insert_ne by done. rewrite Hv. exists G. cbn.
    destruct (i_wrk _ _ _ I d v Hv) as (V & _).
    assert (Hvt : wtok f v = 0).
    { eapply (tok_other _ _ _ f fr i d w v); try done. lia. }
    eapply (inv_2 nw G s _ i d w _ v _ f fr fr'); try done.
    + intros q. unfold wtok, wpend, wsub. cbn. rewrite Hpc. cbn. rewrite occ_app. cbn. split_and!; lia.
    + rewrite P1, P2. done.
    + right. lia.
    + split; cbn; [|done]. by apply inbox_upd.
    + assert (V' : worker_ok (<[f := fr']> (s_frames s)) (stk s) G d v).
      { eapply worker_ok_mono; [..|exact V]; try done.
        - intros q Hq. apply sig_agree_ne. intros ->. lia.
        - intros q Hq frq Hfq. destruct (decide (q = f)) as [->|].
          + rewrite lookup_insert. exists fr'. split; [done|]. cbn. congruence.
          + rewrite lookup_insert_ne by done. eauto. }
      destruct V' as (V1 & V2). split; cbn; [|by destruct (w_pc v)].
      intros q Hq. rewrite <- app_assoc in Hq.
      apply (Hinb (w_inbox v ++ w_batch v)). { set_solver. } apply V1.
    + unfold eff. by rewrite Hpc.
Qed.

End cases.
