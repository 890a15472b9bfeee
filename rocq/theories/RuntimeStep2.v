(** * Creation and destruction of task frames. *)

From stdpp Require Import prelude gmap list.
From Coq Require Import NArith Lia.
From Verif Require Import RuntimeModel RuntimeSpec RuntimeInv RuntimeStep.
Local Open Scope N_scope.

Lemma stk_ok_push sh S S' nx nx' c k x :
  stk_ok sh S nx -> sh !! c = None -> x < nx' -> nx <= nx' ->
  ((S x = [] /\ forall p kp, par k = Some p -> sh !! p <> Some (kp, x)) \/
   (exists p, par k = Some p /\ head_is (S x) p)) ->
  par k <> Some c ->
  (forall d kd y, sh !! d = Some (kd, y) -> par kd <> Some c) ->
  S' x = c :: S x -> (forall y, y <> x -> S' y = S y) ->
  stk_ok (<[c := (k, x)]> sh) S' nx'.
Proof.
  intros O Hc Hx Hnx Hcond Hpc Hkc E1 E2.
  assert (Hout : forall y, c ∉ S y).
  { intros y Hy. destruct (so_dom _ _ _ O _ _ Hy) as (k' & Hk'). congruence. }
  constructor.
  - intros f k' y. destruct (decide (f = c)) as [->|Hne].
    + rewrite lookup_insert. intros [= -> ->]. rewrite E1. by left.
    + rewrite lookup_insert_ne by done. intros Hf. apply (so_in _ _ _ O) in Hf.
      destruct (decide (y = x)) as [->|]; [rewrite E1; by right|by rewrite E2].
  - intros f y Hf. destruct (decide (y = x)) as [->|].
    + rewrite E1 in Hf. apply elem_of_cons in Hf as [->|Hf].
      * exists k. by rewrite lookup_insert.
      * assert (f <> c) by (intros ->; by eapply Hout). rewrite lookup_insert_ne by done.
        by apply (so_dom _ _ _ O).
    + rewrite E2 in Hf by done. assert (f <> c) by (intros ->; by eapply Hout).
      rewrite lookup_insert_ne by done. by apply (so_dom _ _ _ O).
  - intros y. destruct (decide (y = x)) as [->|].
    + rewrite E1. apply list.NoDup_cons. split; [apply Hout|apply O].
    + rewrite E2 by done. apply O.
  - intros y l1 a p l2 Hy. destruct (decide (y = x)) as [->|].
    + rewrite E1 in Hy. destruct l1 as [|b l1]; cbn in Hy.
      * injection Hy as <- Hy. exists k. rewrite lookup_insert. split; [done|].
        destruct Hcond as [[H0 _]|(q & Hq & (l' & Hl'))]; [congruence|]. congruence.
      * injection Hy as <- Hy. destruct (so_adj _ _ _ O _ _ _ _ _ Hy) as (k' & Hk' & Hp).
        exists k'. rewrite lookup_insert_ne by (intros ->; congruence). done.
    + rewrite E2 in Hy by done. destruct (so_adj _ _ _ O _ _ _ _ _ Hy) as (k' & Hk' & Hp).
      exists k'. rewrite lookup_insert_ne by (intros ->; congruence). done.
  - intros y l1 a k1 p k' Hy Ha Hp.
    destruct (decide (p = c)) as [->|Hnp].
    { destruct (decide (a = c)) as [->|Hna].
      - rewrite lookup_insert in Ha. injection Ha as <- <-. done.
      - rewrite lookup_insert_ne in Ha by done. exfalso. by eapply Hkc. }
    rewrite (lookup_insert_ne _ _ _ _ (not_eq_sym Hnp)).
    destruct (decide (a = c)) as [->|Hna].
    + rewrite lookup_insert in Ha. injection Ha as <- <-.
      rewrite E1 in Hy.
      assert (Hnil : S x = []).
      { destruct l1 as [|b l1]; cbn in Hy; [by injection Hy|].
        injection Hy as <- Hy. exfalso. apply (Hout x). rewrite Hy. apply elem_of_app. right. by left. }
      destruct Hcond as [[_ H1]|(q & Hq & (l' & Hl'))]; [|congruence].
      by apply H1.
    + rewrite lookup_insert_ne in Ha by done.
      destruct (decide (y = x)) as [->|].
      * rewrite E1 in Hy. destruct l1 as [|b l1]; cbn in Hy.
        -- injection Hy as <- _. congruence.
        -- injection Hy as <- Hy. by eapply (so_bot _ _ _ O).
      * rewrite E2 in Hy by done. by eapply (so_bot _ _ _ O).
  - intros y Hy. rewrite E2 by lia. apply (so_fresh _ _ _ O). lia.
Qed.

Lemma stk_ok_pop sh S S' nx c x l :
  stk_ok sh S nx -> S x = c :: l ->
  (forall d kd y, sh !! d = Some (kd, y) -> par kd <> Some c) ->
  S' x = l -> (forall y, y <> x -> S' y = S y) ->
  stk_ok (delete c sh) S' nx.
Proof.
  intros O Hc Hkc E1 E2.
  pose proof (so_nodup _ _ _ O x) as ND. rewrite Hc in ND. apply list.NoDup_cons in ND as [Hcl ND].
  destruct (so_dom _ _ _ O c x ltac:(rewrite Hc; by left)) as (kc & Hkcs).
  assert (Hout : forall y, c ∉ S' y).
  { intros y Hy. destruct (decide (y = x)) as [->|]; [by rewrite E1 in Hy|].
    rewrite E2 in Hy by done. destruct (so_dom _ _ _ O _ _ Hy) as (k' & Hk'). congruence. }
  constructor.
  - intros f k' y Hf. apply lookup_delete_Some in Hf as [Hne Hf].
    apply (so_in _ _ _ O) in Hf. destruct (decide (y = x)) as [->|].
    + rewrite Hc in Hf. rewrite E1. apply elem_of_cons in Hf as [->|]; done.
    + by rewrite E2.
  - intros f y Hf. assert (f <> c) by (intros ->; by eapply Hout).
    rewrite lookup_delete_ne by done. apply (so_dom _ _ _ O).
    destruct (decide (y = x)) as [->|]; [|by rewrite E2 in Hf].
    rewrite Hc. right. by rewrite E1 in Hf.
  - intros y. destruct (decide (y = x)) as [->|]; [by rewrite E1|]. rewrite E2 by done. apply O.
  - intros y l1 a p l2 Hy.
    assert (a <> c). { intros ->. apply (Hout y). rewrite Hy. apply elem_of_app. right. by left. }
    rewrite lookup_delete_ne by done.
    destruct (decide (y = x)) as [->|].
    + rewrite E1 in Hy. apply (so_adj _ _ _ O x (c :: l1) a p l2). rewrite Hc. cbn. by rewrite Hy.
    + rewrite E2 in Hy by done. by eapply (so_adj _ _ _ O).
  - intros y l1 a k1 p k' Hy Ha Hp. apply lookup_delete_Some in Ha as [Hne Ha].
    intros Hp'. apply lookup_delete_Some in Hp' as [Hnp Hp'].
    revert Hp'. destruct (decide (y = x)) as [->|].
    + rewrite E1 in Hy. eapply (so_bot _ _ _ O x (c :: l1)); eauto. rewrite Hc. cbn. by rewrite Hy.
    + rewrite E2 in Hy by done. by eapply (so_bot _ _ _ O).
  - intros y Hy. pose proof (so_fresh _ _ _ O y Hy) as X.
    destruct (decide (y = x)) as [->|]; [congruence|]. by rewrite E2.
Qed.

Lemma kid_count sh c k x p :
  sh !! c = Some (k, x) -> par k = Some p -> nforks p sh = 0 -> ncalls p sh = 0 -> False.
Proof.
  intros H Hp H1 H2. unfold nforks, ncalls in *.
  destruct k; cbn in Hp; try done; injection Hp as ->.
  - pose proof (cntm_zero (is_call p) _ _ _ H H2) as X. unfold is_call in X. cbn in X.
    case_bool_decide; done.
  - pose proof (cntm_zero (is_fork p) _ _ _ H H1) as X. unfold is_fork in X. cbn in X.
    case_bool_decide; done.
Qed.

Lemma no_kids sh c :
  nforks c sh = 0 -> ncalls c sh = 0 ->
  forall d kd y, sh !! d = Some (kd, y) -> par kd <> Some c.
Proof. intros H1 H2 d kd y Hd Hp. by eapply kid_count. Qed.

(** ** A running task creates a child *)

Definition child_kind (kd : kind) (f : N) (i : nat) (st : bool) : Prop :=
  kd = KFork f i st \/ kd = KCall f i st.

Lemma inv_new nw G s s' i w f fr kd t m' w' fr' rp' st :
  inv nw G s ->
  s_workers s !! i = Some w -> w_pc w = PRun f -> s_frames s !! f = Some fr ->
  f_rp fr = RRun t ->
  (* the new frame of the parent *)
  fr' = set_cells (f_cells fr ++ [CUnset]) (set_rp rp' fr) ->
  ((exists m k, rp' = RFork m st k (f_steals fr) /\ t = Fork m st m' k /\
      kd = KFork f (length (f_cells fr)) st /\
      w' = set_pc (PRun (s_nextf s)) (set_deque (f :: w_deque w) w)) \/
   (exists m k, rp' = RCall m st k /\ t = Call m st m' k /\
      kd = KCall f (length (f_cells fr)) st /\
      w' = set_pc (PRun (s_nextf s)) w)) ->
  s_workers s' = <[i := w']> (s_workers s) ->
  s_frames s' = <[s_nextf s := new_frame kd m' (w_stk w)]> (<[f := fr']> (s_frames s)) ->
  s_stacks s' = <[w_stk w := s_nextf s :: stk s (w_stk w)]> (s_stacks s) ->
  s_nextf s' = s_nextf s + 1 -> s_nexts s' = s_nexts s ->
  inv nw (fun q => if decide (q = s_nextf s)
                   then match kd with KFork p j _ => Some (p, j, w_stk w) | _ => G f end
                   else G q) s'.
Proof.
  intros I Hi Hpc Hf Hrp Efr Hcase Ews EF Est Enf Ens.
  set (c := s_nextf s) in *.
  set (G' := fun q => if decide (q = c) then _ else G q).
  assert (Hc : s_frames s !! c = None) by (apply I; lia).
  assert (Hfc : f <> c) by congruence.
  destruct (pend_run _ _ _ _ _ f I Hi (or_introl Hpc)) as (fr0 & Hf0 & Hpend & Htok).
  assert (fr0 = fr) as -> by congruence. clear Hf0.
  pose proof (i_node _ _ _ I f fr Hf) as N. rewrite Hpend, Htok in N.
  destruct N as (_ & N2 & N3 & N4 & N5). rewrite Hrp in N2, N5. destruct N5 as (N5 & _ & N6).
  destruct (i_wrk _ _ _ I i w Hi) as ((Winb & W) & Wlt). rewrite Hpc in W.
  destruct W as (fr0 & Hf0 & W1 & W2 & W3 & _). assert (fr0 = fr) as -> by congruence. clear Hf0.
  assert (Hlt : (i < length (s_workers s))%nat) by (by apply lookup_lt_Some in Hi).
  assert (Hkd : exists j, child_kind kd f j st /\ j = length (f_cells fr)).
  { destruct Hcase as [(m & k & _ & _ & -> & _)|(m & k & _ & _ & -> & _)]; eexists; split; try done; [by left|by right]. }
  assert (Hpar : par kd = Some f).
  { destruct Hkd as (j & [-> | ->] & _); done. }
  assert (Ek : f_kind fr' = f_kind fr) by (by rewrite Efr).
  assert (Es : f_stk fr' = f_stk fr) by (by rewrite Efr).
  assert (Est' : f_steals fr' = f_steals fr) by (by rewrite Efr).
  assert (Erp : f_rp fr' = rp') by (by rewrite Efr).
  assert (Esh : shape_of (s_frames s') = <[c := (kd, w_stk w)]> (shape_of (s_frames s))).
  { rewrite EF, shape_new. f_equal. by eapply shape_upd. }
  assert (Hshc : shape_of (s_frames s) !! c = None) by (by apply shape_none).
  assert (Hshf := shape_lookup _ _ _ Hf).
  assert (Ewstk : w_stk w' = w_stk w).
  { destruct Hcase as [(? & ? & _ & _ & _ & ->)|(? & ? & _ & _ & _ & ->)]; done. }
  assert (Ew'pc : w_pc w' = PRun c).
  { destruct Hcase as [(? & ? & _ & _ & _ & ->)|(? & ? & _ & _ & _ & ->)]; done. }
  assert (HS1 : stk s' (w_stk w) = c :: stk s (w_stk w)).
  { unfold stk at 1. rewrite Est, lookup_insert. done. }
  assert (HS2 : forall y, y <> w_stk w -> stk s' y = stk s y).
  { intros y Hy. unfold stk. rewrite Est, lookup_insert_ne by done. done. }
  destruct (i_dead _ _ _ I c Hc) as (Dc1 & Dc2 & Dc3 & Dc4).
  assert (Htop : f_steals fr = 0 -> head_is (stk s (w_stk w)) f).
  { intros E. rewrite W1 by done. eapply childless_top; eauto; lia. }
  assert (Hcond : (stk s (w_stk w) = [] /\ f_stk fr <> w_stk w /\ f_steals fr <> 0) \/
                  (f_stk fr = w_stk w /\ f_steals fr = 0)).
  { destruct (decide (f_steals fr = 0)) as [E|E].
    - right. rewrite W1; done.
    - left. split_and!; [by apply W2| |done]. intros E'.
      pose proof (so_in _ _ _ (i_stk _ _ _ I) _ _ _ Hshf) as X. rewrite E', W2 in X by done. inversion X. }
  (* token bookkeeping *)
  assert (Hsub : forall q, sumw (wsub q) (s_workers s') = sumw (wsub q) (s_workers s)).
  { intros q. rewrite Ews. pose proof (sumw_insert (wsub q) _ _ _ w' Hi) as X.
    unfold wsub in X at 2 4. rewrite Hpc, Ew'pc in X. lia. }
  assert (HtokE : forall q, sumw (wtok q) (s_workers s') + eqn f q =
      sumw (wtok q) (s_workers s) + eqn c q + match kd with KFork _ _ _ => eqn f q | _ => 0 end).
  { intros q. rewrite Ews. pose proof (sumw_insert (wtok q) _ _ _ w' Hi) as X.
    unfold wtok in X at 2 4. rewrite Hpc, Ew'pc in X. cbn in X.
    destruct Hcase as [(? & ? & _ & _ & -> & ->)|(? & ? & _ & _ & -> & ->)]; cbn in X; lia. }
  assert (HpendE : forall q, sumw (wpend q) (s_workers s') =
      sumw (wpend q) (s_workers s) + match kd with KFork _ _ _ => eqn f q | _ => 0 end).
  { intros q. rewrite Ews. pose proof (sumw_insert (wpend q) _ _ _ w' Hi) as X.
    unfold wpend in X at 2 4. rewrite Hpc, Ew'pc in X. cbn in X.
    destruct Hcase as [(? & ? & _ & _ & -> & ->)|(? & ? & _ & _ & -> & ->)]; cbn in X; lia. }
  assert (Hcp : forall q, ncapt q (s_frames s') = ncapt q (s_frames s)).
  { intros q. unfold ncapt. rewrite EF. rewrite cntm_new by (by rewrite lookup_insert_ne).
    pose proof (cntm_upd (is_capt q) _ _ _ fr' Hf) as X.
    unfold is_capt in X at 2 4. rewrite Hrp, Erp in X. unfold is_capt at 1. cbn.
    destruct Hcase as [(? & ? & -> & _)|(? & ? & -> & _)]; cbn in X; lia. }
  assert (Hnf : forall q, nforks q (shape_of (s_frames s')) =
      nforks q (shape_of (s_frames s)) + match kd with KFork _ _ _ => eqn f q | _ => 0 end).
  { intros q. unfold nforks. rewrite Esh, cntm_new by done. unfold is_fork at 1. cbn.
    destruct Hkd as (j & [-> | ->] & _); cbn; unfold eqn; [case_bool_decide; destruct (decide _)|]; cbn; try done; lia. }
  assert (Hnc : forall q, ncalls q (shape_of (s_frames s')) =
      ncalls q (shape_of (s_frames s)) + match kd with KCall _ _ _ => eqn f q | _ => 0 end).
  { intros q. unfold ncalls. rewrite Esh, cntm_new by done. unfold is_call at 1. cbn.
    destruct Hkd as (j & [-> | ->] & _); cbn; unfold eqn; [|case_bool_decide; destruct (decide _)]; cbn; try done; lia. }
  destruct N6 as (n & x & Hsc & Hn1 & Hn2 & Hn3).
  constructor.
  - rewrite Ews, insert_length. apply I.
  - intros q frq Hq. rewrite Hsub, HpendE, Hcp, Hnf, Hnc. pose proof (HtokE q) as HT.
    rewrite EF in Hq. destruct (decide (q = c)) as [->|Hqc].
    + rewrite lookup_insert in Hq. injection Hq as <-.
      rewrite (eqn_ne f c) in * by done. rewrite eqn_refl in HT.
      assert (HX : scoped nw 0 false m').
      { destruct Hcase as [(? & ? & _ & -> & _)|(? & ? & _ & -> & _)]; inversion Hsc; done. }
      assert (ncapt c (s_frames s) = 0) as ->.
      { destruct (decide (0 < ncapt c (s_frames s))) as [H|]; [|lia]. exfalso.
        apply cntm_ex in H as (d & a & Hd & Ha). unfold is_capt in Ha.
        destruct (f_rp a); try done. apply bool_decide_eq_true in Ha.
        eapply kid_count; [by apply shape_lookup|exact Ha|done|done]. }
      assert (sumw (wpend c) (s_workers s) = 0) as Hp0.
      { destruct (decide (0 < sumw (wpend c) (s_workers s))) as [H|]; [|lia].
        apply sumw_ex in H as (j & wj & Hj & Hwj). pose proof (wpend_le_wtok c wj).
        pose proof (sumw_ge (wtok c) _ _ _ Hj). lia. }
      unfold node_ok. cbn. rewrite Hp0. unfold u16max in *.
      split_and!; try (destruct kd; lia); try lia.
      exists 0, false. unfold max_forks. split_and!; cbn; try done; lia.
    + rewrite lookup_insert_ne in Hq by done. rewrite (eqn_ne c q) in HT by done.
      destruct (decide (q = f)) as [->|Hqf].
      * rewrite lookup_insert in Hq. injection Hq as <-. rewrite eqn_refl in *. rewrite Hpend.
        unfold node_ok. rewrite Est', Erp.
        replace (f_joins fr') with (f_joins fr) by (by rewrite Efr).
        replace (f_eptr fr') with (f_eptr fr) by (by rewrite Efr).
        replace (f_eflag fr') with (f_eflag fr) by (by rewrite Efr).
        destruct Hcase as [(m & k & -> & -> & -> & _)|(m & k & -> & -> & -> & _)].
        -- split_and!; [lia|lia|lia|lia|lia|]. exists n, x. split_and!.
           ++ inversion Hsc; subst. unfold fork_scope. split_and!; done.
           ++ done.
           ++ naive_solver.
           ++ left. split; [done|]. lia.
        -- split_and!; [lia|lia|lia|lia|lia|lia|]. exists n, x. split_and!.
           ++ inversion Hsc; subst. unfold call_scope. split_and!; done.
           ++ done.
           ++ naive_solver.
      * rewrite lookup_insert_ne in Hq by done.
        pose proof (i_node _ _ _ I q frq Hq) as N. rewrite (eqn_ne f q) in * by done.
        replace (sumw (wtok q) (s_workers s')) with (sumw (wtok q) (s_workers s))
          by (destruct kd; lia).
        destruct kd; rewrite !N.add_0_r; done.
  - intros q Hq. rewrite Hsub, Hnf, Hnc. pose proof (HtokE q) as HT.
    rewrite EF in Hq. apply lookup_insert_None in Hq as [Hq Hqc].
    apply lookup_insert_None in Hq as [Hq Hqf].
    rewrite (eqn_ne f q), ?(eqn_ne c q) in * by done.
    destruct (i_dead _ _ _ I q Hq) as (D1 & D2 & D3 & D4).
    destruct kd; split_and!; lia.
  - intros d k y p frp. rewrite Esh. intros Hd Hp Hfp. rewrite EF in Hfp.
    destruct (decide (d = c)) as [->|Hdc].
    + rewrite lookup_insert in Hd. injection Hd as <- <-. rewrite Hpar in Hp. injection Hp as <-.
      rewrite lookup_insert_ne in Hfp by done. rewrite lookup_insert in Hfp. injection Hfp as <-.
      split.
      * unfold kid_ok. rewrite Est', Erp, Es.
        assert (length (f_cells fr') = S (length (f_cells fr))) as ->.
        { rewrite Efr. cbn. rewrite app_length. cbn. lia. }
        destruct Hcase as [(m & k & -> & _ & -> & _)|(m & k & -> & _ & -> & _)]; cbn.
        -- split; [lia|]. destruct (f_steals fr); done.
        -- split_and!; [done| |done]. destruct Hcond as [(_ & H1 & H2)|(H1 & H2)]; split; intros; congruence.
      * destruct (decide (f < c)); [done|]. rewrite (i_fresh _ _ _ I f) in Hf by lia. done.
    + rewrite lookup_insert_ne in Hd by done.
      destruct (decide (p = c)) as [->|Hpc'].
      { exfalso. by eapply kid_count. }
      rewrite lookup_insert_ne in Hfp by done.
      destruct (decide (p = f)) as [->|Hpf].
      * rewrite lookup_insert in Hfp. injection Hfp as <-.
        destruct (i_kid _ _ _ I d k y f fr Hd Hp Hf) as (K1 & K2). split; [|done].
        unfold kid_ok in *. rewrite Est', Erp, Es.
        assert (length (f_cells fr') = S (length (f_cells fr))) as ->.
        { rewrite Efr. cbn. rewrite app_length. cbn. lia. }
        destruct k; cbn in *; try done.
        -- exfalso. injection Hp as ->.
           pose proof (cntm_pos (is_call f) _ _ _ Hd) as X. unfold is_call in X at 1. cbn in X.
           rewrite bool_decide_eq_true_2 in X by done. specialize (X eq_refl).
           unfold ncalls in N2. lia.
        -- split; [lia|].
           destruct Hcase as [(m & k & -> & _ & -> & _)|(m & k & -> & _ & -> & _)]; [|done].
           destruct (f_steals fr) eqn:E; [|done]. exfalso. injection Hp as ->.
           pose proof (cntm_pos (is_fork f) _ _ _ Hd) as X. unfold is_fork in X at 1. cbn in X.
           rewrite bool_decide_eq_true_2 in X by done. specialize (X eq_refl).
           unfold nforks in N5. lia.
      * rewrite lookup_insert_ne in Hfp by done. eapply i_kid; eauto.
  - intros d k y. rewrite Esh. unfold G'. destruct (decide (d = c)) as [->|Hdc].
    + rewrite lookup_insert. intros [= <- <-].
      destruct Hkd as (j & [-> | ->] & _).
      * done.
      * by rewrite decide_False by done.
    + rewrite lookup_insert_ne by done. intros Hd. pose proof (i_ghost _ _ _ I d k y Hd) as X.
      destruct k as [|p j st'|p j st']; try done.
      rewrite decide_False; [done|]. intros ->. by eapply kid_count.
  - intros q Hq. rewrite Enf in Hq. rewrite EF.
    rewrite lookup_insert_ne by lia. rewrite lookup_insert_ne.
    + apply I. lia.
    + intros ->. rewrite (i_fresh _ _ _ I q) in Hf by lia. done.
  - rewrite Esh, Ens. eapply stk_ok_push; try done.
    + apply I.
    + destruct Hcond as [(H1 & H2 & H3)|(H1 & H2)].
      * left. split; [done|]. rewrite Hpar. intros p kp [= <-]. congruence.
      * right. exists f. split; [done|]. by apply Htop.
    + rewrite Hpar. congruence.
    + intros d k y Hd. by eapply no_kids.
  - intros j wj. rewrite Ews, Ens. destruct (decide (j = i)) as [->|Hne].
    + rewrite list_lookup_insert by done. intros [= <-]. split; [|by rewrite Ewstk].
      assert (HL : forall q, q ∈ w_deque w -> sig_agree (s_frames s) (s_frames s') q /\ G' q = G q).
      { intros q Hq.
        assert (Ht : 1 <= occ q (w_deque w)) by (apply occ_in in Hq; lia).
        assert (Hqf : q <> f).
        { intros ->. pose proof (sumw_ge (wpend f) _ _ _ Hi) as X. unfold wpend at 1 in X. lia. }
        assert (Hqc : q <> c).
        { intros ->. pose proof (sumw_ge (wtok c) _ _ _ Hi) as X. unfold wtok at 1 in X. lia. }
        split.
        - apply sig_agree_same. rewrite EF. by rewrite !lookup_insert_ne.
        - unfold G'. by rewrite decide_False. }
      assert (HL' : forall a, links (s_frames s) G a (w_deque w) -> links (s_frames s') G' a (w_deque w)).
      { intros a. apply links_mono; intros q Hq; apply HL; done. }
      split.
      * intros q Hq.
        assert (Hq' : q ∈ w_inbox w ++ w_batch w).
        { destruct Hcase as [(? & ? & _ & _ & _ & ->)|(? & ? & _ & _ & _ & ->)]; done. }
        destruct (Winb q Hq') as (frq & Hfq & Hr). exists frq.
        assert (Ht : 1 <= occ q (w_inbox w) + occ q (w_batch w)).
        { apply occ_in in Hq'. rewrite occ_app in Hq'. lia. }
        assert (Hqf : q <> f).
        { intros ->. pose proof (sumw_ge (wtok f) _ _ _ Hi) as X. unfold wtok at 1 in X.
          rewrite Hpc in X. cbn in X. rewrite eqn_refl in X. lia. }
        rewrite EF. rewrite !lookup_insert_ne by (congruence || done). done.
      * rewrite Ew'pc. exists (new_frame kd m' (w_stk w)).
        rewrite EF, lookup_insert. split; [done|]. split; [by rewrite Ewstk|]. split; [done|].
        split; [|done]. rewrite <- EF. unfold G' at 2. rewrite decide_True by done.
        destruct Hcase as [(m & k & Er & _ & -> & ->)|(m & k & Er & _ & -> & ->)]; cbn.
        -- exists (length (f_cells fr)), (w_stk w), fr'.
           rewrite EF, lookup_insert_ne, lookup_insert by done. split; [done|]. split; [done|].
           rewrite Est', Es. split_and!.
           ++ destruct Hcond as [(_ & H1 & H2)|(H1 & H2)]; split; intros; congruence.
           ++ rewrite Efr. cbn. rewrite app_length. cbn. lia.
           ++ rewrite <- EF. unfold G' at 2. rewrite decide_False by done. by apply HL'.
        -- by apply HL'.
    + rewrite list_lookup_insert_ne by done. intros Hj.
      destruct (i_wrk _ _ _ I j wj Hj) as (V1 & V2). split; [|done].
      assert (Hjf : wtok f wj = 0).
      { eapply (tok_other _ _ _ f fr i j w wj); try done. unfold wtok. rewrite Hpc. cbn.
        rewrite eqn_refl. lia. }
      eapply worker_ok_mono; [..|exact V1].
      * intros q Hq. apply sig_agree_same. rewrite EF.
        assert (q <> f) by (intros ->; lia).
        assert (q <> c). { intros ->. pose proof (sumw_ge (wtok c) _ _ _ Hj). lia. }
        by rewrite !lookup_insert_ne.
      * intros q Hq frq Hfq. rewrite EF.
        assert (q <> c) by congruence.
        rewrite lookup_insert_ne by done. destruct (decide (q = f)) as [->|].
        -- rewrite lookup_insert. exists fr'. split; [done|]. congruence.
        -- rewrite lookup_insert_ne by done. eauto.
      * intros q Hq. unfold G'. rewrite decide_False; [done|].
        intros ->. pose proof (sumw_ge (wtok c) _ _ _ Hj). lia.
      * intros He. apply HS2. intros E.
        eapply (i_own _ _ _ I j i wj w); try done. unfold eff. by rewrite Hpc.
  - intros j1 j2 w1 w2. rewrite Ews.
    assert (Heff : eff w = true) by (unfold eff; by rewrite Hpc).
    destruct (decide (j1 = i)) as [->|H1], (decide (j2 = i)) as [->|H2];
      rewrite ?list_lookup_insert by done; rewrite ?list_lookup_insert_ne by done.
    + done.
    + intros [= <-] Hj _ He1 He2. rewrite Ewstk. eapply (i_own _ _ _ I i j2); eauto.
    + intros Hj [= <-] _ He1 He2. rewrite Ewstk. eapply (i_own _ _ _ I j1 i); eauto.
    + intros. eapply (i_own _ _ _ I j1 j2); eauto.
Qed.

(** ** A finished task is destroyed *)

Lemma inv_del nw G s s' i w w' f fr l :
  inv nw G s ->
  s_workers s !! i = Some w -> w_pc w = PRun f -> s_frames s !! f = Some fr ->
  (f_rp fr = RFinal \/ f_rp fr = RSignalled) ->
  f_stk fr = w_stk w -> stk s (w_stk w) = f :: l ->
  s_workers s' = <[i := w']> (s_workers s) ->
  w_stk w' = w_stk w -> eff w' = true ->
  shape_of (s_frames s') = delete f (shape_of (s_frames s)) ->
  s_stacks s' = <[w_stk w := l]> (s_stacks s) ->
  s_nextf s' = s_nextf s -> s_nexts s' = s_nexts s ->
  (forall q, ncapt q (s_frames s') = ncapt q (s_frames s)) ->
  (forall q fr', q <> f -> s_frames s' !! q = Some fr' ->
    nforks q (shape_of (s_frames s')) + b2n (is_fork q (f_kind fr, f_stk fr)) = nforks q (shape_of (s_frames s)) ->
    ncalls q (shape_of (s_frames s')) + b2n (is_call q (f_kind fr, f_stk fr)) = ncalls q (shape_of (s_frames s)) ->
    sumw (wsub q) (s_workers s') = sumw (wsub q) (s_workers s) + wsub q w' ->
    sumw (wpend q) (s_workers s') + wpend q w = sumw (wpend q) (s_workers s) + wpend q w' ->
    sumw (wtok q) (s_workers s') + wtok q w = sumw (wtok q) (s_workers s) + wtok q w' ->
    node_ok nw fr' (nforks q (shape_of (s_frames s'))) (ncalls q (shape_of (s_frames s')))
      (ncapt q (s_frames s)) (sumw (wsub q) (s_workers s')) (sumw (wpend q) (s_workers s'))
      (sumw (wtok q) (s_workers s'))) ->
  (forall q, s_frames s !! q = None -> wtok q w' = wtok q w /\ wsub q w' = 0) ->
  wtok f w' = 0 -> wsub f w' = 0 ->
  (forall c k x p frp frp', c <> f -> shape_of (s_frames s) !! c = Some (k, x) -> par k = Some p ->
    s_frames s !! p = Some frp -> s_frames s' !! p = Some frp' -> kid_ok frp (k, x) -> kid_ok frp' (k, x)) ->
  (forall j wj, j <> i -> s_workers s !! j = Some wj -> forall q, 0 < wtok q wj ->
    sig_agree (s_frames s) (s_frames s') q) ->
  worker_ok (s_frames s') (stk s') G i w' ->
  inv nw G s'.
Proof.
  intros I Hi Hpc Hf Hrp Efs Hstk Ews Ewstk Heff' Esh Est Enf Ens Hcp Hnode Hdead Htf Hsf Hkid Hoth Hw.
  assert (Hlt : (i < length (s_workers s))%nat) by (by apply lookup_lt_Some in Hi).
  assert (Heff : eff w = true) by (unfold eff; by rewrite Hpc).
  assert (HS1 : stk s' (w_stk w) = l) by (unfold stk; by rewrite Est, lookup_insert).
  assert (HS2 : forall y, y <> w_stk w -> stk s' y = stk s y)
    by (intros y Hy; unfold stk; by rewrite Est, lookup_insert_ne).
  destruct (pend_run _ _ _ _ _ f I Hi (or_introl Hpc)) as (fr0 & Hf0 & Hpend & Htok).
  assert (fr0 = fr) as -> by congruence. clear Hf0.
  pose proof (i_node _ _ _ I f fr Hf) as N. rewrite Hpend, Htok in N.
  assert (Hnk : nforks f (shape_of (s_frames s)) = 0 /\ ncalls f (shape_of (s_frames s)) = 0 /\
                sumw (wsub f) (s_workers s) = 0).
  { destruct N as (_ & N2 & _ & _ & N5). destruct Hrp as [Hr|Hr]; rewrite Hr in *; lia. }
  destruct Hnk as (K1 & K2 & K3).
  pose proof (no_kids _ _ K1 K2) as Hnk.
  assert (Hshf := shape_lookup _ _ _ Hf).
  assert (HF : forall q, s_frames s' !! q = None -> q = f \/ s_frames s !! q = None).
  { intros q Hq. apply shape_none in Hq. rewrite Esh in Hq. apply lookup_delete_None in Hq as [?|Hq]; [by left|].
    right. by apply shape_none. }
  assert (HFf : s_frames s' !! f = None).
  { apply shape_none. rewrite Esh. apply lookup_delete. }
  assert (Hnf : forall q, nforks q (shape_of (s_frames s')) + b2n (is_fork q (f_kind fr, f_stk fr)) = nforks q (shape_of (s_frames s))).
  { intros q. unfold nforks. rewrite Esh. by apply cntm_del. }
  assert (Hnc : forall q, ncalls q (shape_of (s_frames s')) + b2n (is_call q (f_kind fr, f_stk fr)) = ncalls q (shape_of (s_frames s))).
  { intros q. unfold ncalls. rewrite Esh. by apply cntm_del. }
  assert (Hsub : forall q, sumw (wsub q) (s_workers s') = sumw (wsub q) (s_workers s) + wsub q w').
  { intros q. rewrite Ews. pose proof (sumw_insert (wsub q) _ _ _ w' Hi) as X.
    unfold wsub in X at 2. rewrite Hpc in X. lia. }
  constructor.
  - rewrite Ews, insert_length. apply I.
  - intros q frq Hq. rewrite Hcp. assert (q <> f) by congruence.
    apply Hnode; try done; try (rewrite Ews; by apply sumw_insert).
  - intros q Hq. pose proof (Hnf q) as X1. pose proof (Hnc q) as X2. pose proof (Hsub q) as X3.
    pose proof (sumw_insert (wtok q) _ _ _ w' Hi) as X4. rewrite <- Ews in X4.
    destruct (HF q Hq) as [->|Hq'].
    + assert (wtok f w = 1).
      { pose proof (sumw_ge (wtok f) _ _ _ Hi). assert (1 <= wtok f w); [|lia].
        unfold wtok. rewrite Hpc. cbn. rewrite eqn_refl. lia. }
      split_and!; lia.
    + destruct (i_dead _ _ _ I q Hq') as (D1 & D2 & D3 & D4).
      destruct (Hdead q Hq') as (E1 & E2). split_and!; lia.
  - intros c k x p frp'. rewrite Esh. intros Hc Hp Hfp.
    apply lookup_delete_Some in Hc as [Hne Hc].
    destruct (inv_parent _ _ _ _ _ _ _ I Hc Hp) as (frp & Hfp0).
    destruct (i_kid _ _ _ I c k x p frp Hc Hp Hfp0) as (Q1 & Q2). split; [|done].
    eapply Hkid; eauto.
  - intros c k x. rewrite Esh. intros Hc. apply lookup_delete_Some in Hc as [Hne Hc].
    by eapply (i_ghost _ _ _ I).
  - intros q Hq. rewrite Enf in Hq. apply shape_none. rewrite Esh.
    apply lookup_delete_None. right. apply shape_none. by apply I.
  - rewrite Esh, Ens. eapply stk_ok_pop; try done. apply I.
  - intros j wj. rewrite Ews, Ens. destruct (decide (j = i)) as [->|Hne].
    + rewrite list_lookup_insert by done. intros [= <-]. split; [done|].
      rewrite Ewstk. by eapply i_wrk.
    + rewrite list_lookup_insert_ne by done. intros Hj.
      destruct (i_wrk _ _ _ I j wj Hj) as (V1 & V2). split; [|done].
      eapply worker_ok_mono; [..|exact V1].
      * intros q Hq. by eapply Hoth.
      * intros q Hq frq Hfq. assert (q <> f).
        { intros ->. pose proof (sumw_ge (wsub f) _ _ _ Hj). lia. }
        pose proof (shape_lookup _ _ _ Hfq) as Hsh.
        rewrite <- (lookup_delete_ne _ f q) in Hsh by done. rewrite <- Esh in Hsh.
        apply shape_lookup_inv in Hsh as (fr' & Hf' & [= E1 E2]). eauto.
      * done.
      * intros He. apply HS2. intros E. eapply (i_own _ _ _ I j i wj w); done.
  - intros j1 j2 w1 w2. rewrite Ews.
    destruct (decide (j1 = i)) as [->|H1], (decide (j2 = i)) as [->|H2];
      rewrite ?list_lookup_insert by done; rewrite ?list_lookup_insert_ne by done.
    + done.
    + intros [= <-] Hj _ He1 He2. rewrite Ewstk. eapply (i_own _ _ _ I i j2); eauto.
    + intros Hj [= <-] _ He1 He2. rewrite Ewstk. eapply (i_own _ _ _ I j1 i); eauto.
    + intros. eapply (i_own _ _ _ I j1 j2); eauto.
Qed.
