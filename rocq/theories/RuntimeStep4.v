(** * Preservation of the invariant, transition by transition (continued). *)

From stdpp Require Import prelude gmap list.
From Coq Require Import NArith Lia.
From Verif Require Import RuntimeModel RuntimeSpec RuntimeInv RuntimeStep RuntimeStep2 RuntimeStep3.
Local Open Scope N_scope.

Section cases.
Context (nw : nat) (G : ghost) (s : state) (i : nat) (w : worker).
Hypothesis (I : inv nw G s) (Hi : s_workers s !! i = Some w).

Lemma own_keep w' : w_stk w' = w_stk w -> eff w = true ->
  forall j wj, j <> i -> s_workers s !! j = Some wj -> eff wj = true -> w_stk w' <> w_stk wj.
Proof using I Hi. intros E1 E2 j wj Hj Hw Hew. rewrite E1. eapply (i_own _ _ _ I i j); eauto. Qed.

Lemma wlt : w_stk w < s_nexts s.
Proof using I Hi. by eapply i_wrk. Qed.

(** ** Tasks that are returned, taken, resumed *)

Lemma good_idle w' s' tr :
  s_frames s' = s_frames s -> s_stacks s' = s_stacks s -> s_nextf s' = s_nextf s -> s_nexts s <= s_nexts s' ->
  (s_workers s' = s_workers s \/ exists w'', s_workers s' = <[i := w'']> (s_workers s)) ->
  w_inbox w' = w_inbox w -> w_batch w' = w_batch w -> w_deque w' = w_deque w ->
  pc_tok (w_pc w) = [] -> (forall q, wsub q w = 0) ->
  w_deque w' = [] -> stk s (w_stk w') = [] -> w_stk w' < s_nexts s' ->
  (forall j wj, j <> i -> s_workers s !! j = Some wj -> eff wj = true -> w_stk w' <> w_stk wj) ->
  good nw (to_idle i w' s' tr).
Proof using I Hi.
  intros EF Est Enf Ens Ews E1 E2 E3 Hpt Hsub Hd Hs Hlt Hown.
  unfold to_idle. rewrite Hd, (stk_same s s') by done. rewrite Hs. cbn.
  exists G. destruct (i_wrk _ _ _ I i w Hi) as ((W0 & W) & _).
  eapply (inv_w nw G s _ i w (set_pc PIdle w')); cbn; try done.
  - destruct Ews as [-> | (w'' & ->)]; [done|]. by rewrite list_insert_insert.
  - intros q. specialize (Hsub q). unfold wtok, wpend, wsub in *. rewrite Hpt. cbn. rewrite E1, E2, E3.
    split_and!; try done. destruct (w_pc w); try done.
  - rewrite EF. split; cbn; [by rewrite E1, E2|]. done.
Qed.

Lemma good_submitted f rest :
  w_pc w = PIdle -> w_batch w = f :: rest -> good nw (resume_submitted i w f rest s).
Proof using I Hi.
  intros Hpc Hb. unfold resume_submitted.
  destruct (i_wrk _ _ _ I i w Hi) as ((W0 & W) & Wlt). rewrite Hpc in W. destruct W as (Wd & Ws).
  destruct (W0 f) as (fr & Hf & Hr). { rewrite Hb. set_solver. }
  rewrite Hf, Wd, Ws.
  assert (Ht : sumw (wtok f) (s_workers s) = 1 /\ sumw (wpend f) (s_workers s) = 0).
  { assert (Hwt : 1 <= wtok f w). { unfold wtok. rewrite Hb. cbn. rewrite eqn_refl. lia. }
    pose proof (i_node _ _ _ I f fr Hf) as (N & _ & _ & _ & N5).
    pose proof (sumw_ge (wtok f) _ _ _ Hi). destruct (f_rp fr); try done; lia. }
  destruct Ht as (Ht & Hp).
  pose proof (i_node _ _ _ I f fr Hf) as N. rewrite Ht, Hp in N.
  set (w' := if decide (f_steals fr = 0) then _ else _).
  assert (Ew : w_pc w' = PRun f /\ w_deque w' = [] /\ w_inbox w' = w_inbox w /\ w_batch w' = rest /\
     (f_steals fr = 0 -> w_stk w' = f_stk fr) /\ (f_steals fr <> 0 -> w_stk w' = w_stk w)).
  { unfold w'. destruct (decide (f_steals fr = 0)); cbn; split_and!; done. }
  destruct Ew as (E1 & E2 & E3 & E4 & E5 & E6).
  cbn. exists G. eapply (inv_w nw G s _ i w w'); cbn; try done.
  - intros q. unfold wtok, wpend, wsub. rewrite E1, E2, E3, E4, Hpc, Wd, Hb. cbn. split_and!; try done. lia.
  - split.
    + intros q Hq. apply W0. rewrite E3, E4 in Hq. rewrite Hb. set_solver.
    + rewrite E1, E2. exists fr. split_and!; try done.
      * intros Hs. rewrite E6 by done. done.
      * by destruct (f_rp fr).
  - destruct (decide (f_steals fr = 0)) as [Hs|Hs]; [|by rewrite E6].
    rewrite E5 by done. destruct (decide (s_nexts s <= f_stk fr)) as [Hc|]; [|lia].
    pose proof (so_in _ _ _ (i_stk _ _ _ I) _ _ _ (shape_lookup _ _ _ Hf)) as X.
    rewrite (so_fresh _ _ _ (i_stk _ _ _ I) _ Hc) in X. inversion X.
  - intros _ j wj Hj Hw Hew. destruct (decide (f_steals fr = 0)) as [Hs|Hs].
    + rewrite E5 by done. intros E.
      destruct (unstolen_childless _ _ _ _ _ _ _ N eq_refl Hs) as (N1 & N2 & N3 & _).
      destruct (childless_top _ _ _ _ _ I Hf N1 N2) as (l' & Hl). rewrite E in Hl.
      destruct (owner_top _ _ _ _ _ _ _ I Hw Hew Hl) as [(Hpj & _)|Hsj].
      * assert (1 <= wtok f w). { unfold wtok. rewrite Hb. cbn. rewrite eqn_refl. lia. }
        assert (1 <= wtok f wj). { unfold wtok. rewrite Hpj. cbn. rewrite eqn_refl. lia. }
        pose proof (sumw_ge2 (wtok f) _ _ _ _ _ (not_eq_sym Hj) Hi Hw). lia.
      * pose proof (sumw_ge (wsub f) _ _ _ Hw). lia.
    + rewrite E6 by done. eapply (i_own _ _ _ I i j); eauto. unfold eff. by rewrite Hpc.
Qed.

(** Stealing [f] (from another worker or from oneself): the steal counter. *)
Lemma steal_bound f fr :
  s_frames s !! f = Some fr -> 1 <= sumw (wpend f) (s_workers s) -> u16inc (f_steals fr) = f_steals fr + 1 /\
  sumw (wpend f) (s_workers s) = 1 /\ sumw (wtok f) (s_workers s) = 1 /\ exists m st k pre, f_rp fr = RFork m st k pre /\ f_steals fr = pre.
Proof using I.
  intros Hf Hp. pose proof (i_node _ _ _ I f fr Hf) as (N1 & _ & _ & _ & N5).
  destruct (f_rp fr) as [t|m st k pre|m st k|k|d t|e| |] eqn:Er; try lia.
  destruct N5 as (N5 & n & x & (F1 & _) & F2 & F3 & F4).
  assert (f_steals fr = pre) by lia. split_and!; try lia.
  - unfold u16inc. apply N.mod_small. unfold max_forks, u16mod in *. lia.
  - eauto 10.
Qed.

Lemma stolen_node f fr nf nc ncp nsb npd ntk :
  node_ok nw fr nf nc ncp nsb npd ntk -> npd = 1 -> ntk = 1 -> (exists m st k pre, f_rp fr = RFork m st k pre /\ f_steals fr = pre) ->
  u16inc (f_steals fr) = f_steals fr + 1 ->
  s_frames s !! f = Some fr ->
  node_ok nw (set_steals (u16inc (f_steals fr)) fr) nf nc ncp nsb 0 1.
Proof using.
  intros (N1 & N2 & N3 & N4 & N5) -> -> (m & st & k & pre & Er & Es) Hi' _.
  unfold node_ok. cbn. rewrite Er in *. rewrite Hi'.
  destruct N5 as (N5 & n & x & F1 & F2 & F3 & F4).
  split_and!; try done; [lia|]. exists n, x. split_and!; try done. right. lia.
Qed.

Lemma stolen_kids f fr c k x :
  s_frames s !! f = Some fr -> (exists m st k pre, f_rp fr = RFork m st k pre /\ f_steals fr = pre) ->
  shape_of (s_frames s) !! c = Some (k, x) -> par k = Some f ->
  kid_ok fr (k, x) -> kid_ok (set_steals (u16inc (f_steals fr)) fr) (k, x).
Proof using I.
  intros Hf (m & st & k0 & pre & Er & Es) Hc Hp K. unfold kid_ok in *. cbn. destruct k; try done.
  exfalso. pose proof (i_node _ _ _ I f fr Hf) as (_ & N2 & _). rewrite Er in N2.
  cbn in Hp. injection Hp as ->. pose proof (cntm_zero (is_call f) _ _ _ Hc N2) as X. unfold is_call in X. cbn in X.
  case_bool_decide; done.
Qed.

Lemma good_stolen f : w_pc w = PStolen f -> good nw (resume_stolen i w f s).
Proof using I Hi.
  intros Hpc. unfold resume_stolen.
  destruct (i_wrk _ _ _ I i w Hi) as ((W0 & W) & Wlt). rewrite Hpc in W. destruct W as (Wd & Ws).
  assert (Hwt : 1 <= wtok f w /\ 1 <= wpend f w).
  { unfold wtok, wpend. rewrite Hpc. cbn. rewrite eqn_refl. lia. }
  destruct (tok_live _ _ _ f _ _ I Hi ltac:(lia)) as (fr & Hf). rewrite Hf, Wd, Ws.
  destruct (steal_bound f fr Hf) as (B1 & B2 & B3 & B4).
  { pose proof (sumw_ge (wpend f) _ _ _ Hi). lia. }
  pose proof (sumw_ge (wtok f) _ _ _ Hi) as T1. rewrite B3 in T1.
  set (fr' := set_steals (u16inc (f_steals fr)) fr).
  cbn. exists G. eapply (inv_1 nw G s _ i w (set_pc (PRun f) w) f fr fr'); cbn; try done.
  - intros q Hq. unfold wtok, wpend, wsub. cbn. rewrite Hpc. cbn. rewrite (eqn_ne f q) by done. split_and!; done.
  - intros nf nc ncp nsb npd ntk nsb' npd' ntk' _ _ _ _ E5 E6 Hn X1 X2 X3 X4 X5 X6. rewrite B2 in E5. rewrite B3 in E6.
    unfold wsub, wpend, wtok in X1, X2, X3. cbn in X1, X2, X3. rewrite Hpc in X1, X2, X3. rewrite Wd in X2, X3.
    cbn in X1, X2, X3. rewrite eqn_refl in *.
    replace npd' with 0 by lia. replace ntk' with 1 by lia. replace nsb' with nsb by lia. by eapply stolen_node.
  - intros c k x Hc Hp K. by eapply stolen_kids.
  - right. left. lia.
  - assert (Hni : f ∉ w_inbox w ++ w_batch w).
    { apply occ_notin. rewrite occ_app. unfold wtok in T1. rewrite Hpc in T1. cbn in T1. rewrite eqn_refl in T1. lia. }
    split; [by apply inbox_upd|]. cbn. exists fr'. rewrite lookup_insert. split; [done|].
    destruct B4 as (m & st & k & pre & Er & Es). split; [|split_and!].
    + unfold fr'. cbn. rewrite B1. lia.
    + done.
    + by rewrite Wd.
    + unfold fr'. cbn. by rewrite Er.
  - intros _. apply own_keep; [done|]. unfold eff. by rewrite Hpc.
Qed.

Lemma good_self_steal : w_pc w = PSelf -> good nw (self_steal i w s).
Proof using I Hi.
  intros Hpc. unfold self_steal.
  destruct (i_wrk _ _ _ I i w Hi) as ((W0 & W) & Wlt). rewrite Hpc in W. destruct W as ((a & Wl) & Ws).
  destruct (w_deque w) as [|f d] eqn:Ed.
  - eapply good_idle; try done.
    + by left.
    + by rewrite Hpc.
    + intros q. unfold wsub. by rewrite Hpc.
    + apply own_keep; [done|]. unfold eff. by rewrite Hpc.
  - destruct Wl as (j & x & fr & Ea & Hf & L1 & L2 & L3). rewrite Hf.
    assert (Hwt : 1 <= wtok f w /\ 1 <= wpend f w).
    { unfold wtok, wpend. rewrite Ed. cbn. rewrite eqn_refl. lia. }
    destruct (steal_bound f fr Hf) as (B1 & B2 & B3 & B4).
    { pose proof (sumw_ge (wpend f) _ _ _ Hi). lia. }
    pose proof (sumw_ge (wtok f) _ _ _ Hi) as T1. rewrite B3 in T1.
    set (fr' := set_steals (u16inc (f_steals fr)) fr).
    assert (Hni : f ∉ d /\ f ∉ w_inbox w ++ w_batch w).
    { rewrite !occ_notin. rewrite occ_app. unfold wtok in T1. rewrite Hpc, Ed in T1. cbn in T1. rewrite eqn_refl in T1. lia. }
    destruct Hni as (Hn1 & Hn2).
    cbn. exists G. eapply (inv_1 nw G s _ i w (set_pc (PRun f) (set_deque d w)) f fr fr'); cbn; try done.
    + intros q Hq. unfold wtok, wpend, wsub. cbn. rewrite Hpc, Ed. cbn. rewrite (eqn_ne f q) by done. split_and!; lia.
    + intros nf nc ncp nsb npd ntk nsb' npd' ntk' _ _ _ _ E5 E6 Hn X1 X2 X3 X4 X5 X6. rewrite B2 in E5. rewrite B3 in E6.
      unfold wsub, wpend, wtok in X1, X2, X3. cbn in X1, X2, X3. rewrite Hpc in X1, X2, X3. rewrite Ed in X2, X3.
      cbn in X1, X2, X3. rewrite eqn_refl in *.
      replace npd' with 0 by lia. replace ntk' with 1 by lia. replace nsb' with nsb by lia. by eapply stolen_node.
    + intros c k x' Hc Hp K. by eapply stolen_kids.
    + right. left. lia.
    + split; [by apply inbox_upd|]. cbn. exists fr'. rewrite lookup_insert. split; [done|].
      destruct B4 as (m & st & k & pre & Er & Es). split; [|split_and!].
      * unfold fr'. cbn. rewrite B1. lia.
      * done.
      * by apply links_upd.
      * unfold fr'. cbn. by rewrite Er.
    + intros _. apply own_keep; [done|]. unfold eff. by rewrite Hpc.
Qed.

(** ** Releasing stacks *)

Lemma fresh_stk w' :
  w_stk w' = s_nexts s -> stk s (w_stk w') = [] /\
  (forall j wj, j <> i -> s_workers s !! j = Some wj -> eff wj = true -> w_stk w' <> w_stk wj).
Proof using I.
  intros E. split.
  - rewrite E. apply (so_fresh _ _ _ (i_stk _ _ _ I)). lia.
  - intros j wj _ Hj _. destruct (i_wrk _ _ _ I j wj Hj) as (_ & Hl). rewrite E. lia.
Qed.

Lemma good_loserel : w_pc w = PLoseRel ->
  good nw (to_idle i (set_wstk (s_nexts s) w) (put_worker i (set_wstk (s_nexts s) w) (bump_s s)) []).
Proof using I Hi.
  intros Hpc. destruct (fresh_stk (set_wstk (s_nexts s) w) eq_refl) as (F1 & F2).
  destruct (i_wrk _ _ _ I i w Hi) as ((W0 & W) & Wlt). rewrite Hpc in W.
  eapply good_idle; cbn; try done; try lia.
  - right. eauto.
  - by rewrite Hpc.
  - intros q. unfold wsub. by rewrite Hpc.
Qed.

Lemma good_swrel b :
  w_pc w = PSwRel b ->
  good nw (let w' := if b then set_wstk (s_nexts s) w else w in
      let s' := if b then bump_s s else s in
      match stk s' (w_stk w') with
      | [] => Next (put_worker i (set_pc PSelf w') s') []
      | _ => Undef
      end).
Proof using I Hi.
  intros Hpc. cbn zeta.
  destruct (i_wrk _ _ _ I i w Hi) as ((W0 & W) & Wlt). rewrite Hpc in W. destruct W as ((a & Wl) & Ws).
  destruct b.
  - destruct (fresh_stk (set_wstk (s_nexts s) w) eq_refl) as (F1 & F2). cbn in F1.
    change (stk (bump_s s)) with (stk s). cbn [w_stk set_wstk]. rewrite F1.
    cbn. exists G. eapply (inv_w nw G s _ i w (set_pc PSelf (set_wstk (s_nexts s) w))); cbn; try done; try lia.
    + intros q. unfold wtok, wpend, wsub. cbn. by rewrite Hpc.
    + split; [done|]. cbn. split; [|done]. eauto.
  - rewrite Ws by done. cbn. exists G. eapply (inv_w nw G s _ i w (set_pc PSelf w)); cbn; try done.
    + intros q. unfold wtok, wpend, wsub. cbn. by rewrite Hpc.
    + split; [done|]. cbn. split; [|auto]. eauto.
    + intros _. apply own_keep; [done|]. unfold eff. by rewrite Hpc.
Qed.

(** ** Taking the submission list *)
Lemma good_take : good nw (take i s).
Proof using I Hi.
  unfold take. rewrite Hi. destruct (w_pc w) eqn:Hpc; try done.
  destruct (w_batch w) eqn:Hb; try done. destruct (w_inbox w) as [|f l] eqn:Hin; try done.
  destruct (i_wrk _ _ _ I i w Hi) as ((W0 & W) & Wlt). rewrite Hpc in W.
  cbn. exists G. eapply (inv_w nw G s _ i w (set_inbox [] (set_batch (f :: l) w))); cbn; try done.
  - intros q. unfold wtok, wpend, wsub. cbn. rewrite Hpc, Hb, Hin. cbn. split_and!; try done; lia.
  - split; cbn; [|by rewrite Hpc]. intros q Hq. apply W0. rewrite Hb, Hin. by rewrite app_nil_r.
  - intros _. apply own_keep; [done|]. unfold eff. by rewrite Hpc.
Qed.

End cases.
