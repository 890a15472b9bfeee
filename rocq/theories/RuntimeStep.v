(** * Every transition of the runtime machine preserves the invariant and is
    free of undefined behaviour. *)

From stdpp Require Import prelude gmap list.
From Coq Require Import NArith Lia.
From Verif Require Import RuntimeModel RuntimeSpec RuntimeInv.
Local Open Scope N_scope.

Lemma stk_same s s' x : s_stacks s' = s_stacks s -> stk s' x = stk s x.
Proof. unfold stk. by intros ->. Qed.

Lemma stk_ok_ext sh S S' nx nx' :
  (forall x, S' x = S x) -> nx <= nx' -> stk_ok sh S nx -> stk_ok sh S' nx'.
Proof.
  intros HS Hx [H1 H2 H3 H4 H5 H6]. constructor; intros *; rewrite ?HS; eauto.
  intros. apply H6. lia.
Qed.

(** ** Changes that keep the set of frames and the stacks *)

Lemma inv_gen nw G s s' i w w' :
  inv nw G s ->
  s_workers s !! i = Some w ->
  s_workers s' = <[i := w']> (s_workers s) ->
  shape_of (s_frames s') = shape_of (s_frames s) ->
  s_stacks s' = s_stacks s -> s_nextf s' = s_nextf s -> s_nexts s <= s_nexts s' ->
  (forall q fr', s_frames s' !! q = Some fr' ->
    sumw (wsub q) (s_workers s') + wsub q w = sumw (wsub q) (s_workers s) + wsub q w' ->
    sumw (wpend q) (s_workers s') + wpend q w = sumw (wpend q) (s_workers s) + wpend q w' ->
    sumw (wtok q) (s_workers s') + wtok q w = sumw (wtok q) (s_workers s) + wtok q w' ->
    node_ok nw fr' (nforks q (shape_of (s_frames s))) (ncalls q (shape_of (s_frames s)))
      (ncapt q (s_frames s')) (sumw (wsub q) (s_workers s')) (sumw (wpend q) (s_workers s'))
      (sumw (wtok q) (s_workers s'))) ->
  (forall q, s_frames s !! q = None -> wtok q w' = wtok q w /\ wsub q w' = wsub q w) ->
  (forall c k x p frp frp', shape_of (s_frames s) !! c = Some (k, x) -> par k = Some p ->
    s_frames s !! p = Some frp -> s_frames s' !! p = Some frp' -> kid_ok frp (k, x) -> kid_ok frp' (k, x)) ->
  (forall j wj, j <> i -> s_workers s !! j = Some wj -> forall q, 0 < wtok q wj ->
    sig_agree (s_frames s) (s_frames s') q) ->
  worker_ok (s_frames s') (stk s) G i w' -> w_stk w' < s_nexts s' ->
  (eff w' = true -> forall j wj, j <> i -> s_workers s !! j = Some wj -> eff wj = true ->
    w_stk w' <> w_stk wj) ->
  inv nw G s'.
Proof.
  intros I Hi Ews Esh Est Enf Ens Hnode Hdead Hkid Hoth Hw Hws Hown.
  assert (Hlt : (i < length (s_workers s))%nat) by (by apply lookup_lt_Some in Hi).
  assert (HS : forall x, stk s' x = stk s x) by (intros; by apply stk_same).
  constructor.
  - rewrite Ews, insert_length. apply I.
  - intros q fr' Hq. rewrite Esh. apply Hnode; [done|..]; rewrite Ews; by apply sumw_insert.
  - intros q Hq. rewrite Esh.
    assert (Hq' : s_frames s !! q = None). { apply shape_none. rewrite <- Esh. by apply shape_none. }
    destruct (i_dead _ _ _ I q Hq') as (D1 & D2 & D3 & D4).
    destruct (Hdead q Hq') as (E1 & E2). rewrite Ews.
    pose proof (sumw_insert (wsub q) _ _ _ w' Hi). pose proof (sumw_insert (wtok q) _ _ _ w' Hi).
    split_and!; try done; lia.
  - intros c k x p frp' Hc Hp Hfp. rewrite Esh in Hc.
    destruct (inv_parent _ _ _ _ _ _ _ I Hc Hp) as (frp & Hfp0).
    destruct (i_kid _ _ _ I c k x p frp Hc Hp Hfp0) as (K1 & K2). split; [|done]. eauto.
  - rewrite Esh. apply I.
  - intros q Hq. rewrite Enf in Hq. apply shape_none. rewrite Esh. apply shape_none. by apply I.
  - rewrite Esh. eapply stk_ok_ext; [done|done|]. apply I.
  - intros j wj. rewrite Ews. destruct (decide (j = i)) as [->|Hne].
    + rewrite list_lookup_insert by done. intros [= <-]. split; [|done].
      eapply worker_ok_mono; [..|exact Hw].
      * intros. by apply sig_agree_same.
      * intros q _ fr Hf. eauto.
      * done.
      * intros. by rewrite HS.
    + rewrite list_lookup_insert_ne by done. intros Hj.
      destruct (i_wrk _ _ _ I j wj Hj) as (W1 & W2). split; [|lia].
      eapply worker_ok_mono; [..|exact W1].
      * intros q Hq. by eapply Hoth.
      * intros q _ fr Hf.
        pose proof (shape_lookup _ _ _ Hf) as Hsh. rewrite <- Esh in Hsh.
        apply shape_lookup_inv in Hsh as (fr' & Hf' & [= E1 E2]). eauto.
      * done.
      * intros. by rewrite HS.
  - intros j1 j2 w1 w2. rewrite Ews.
    destruct (decide (j1 = i)) as [->|H1], (decide (j2 = i)) as [->|H2];
      rewrite ?list_lookup_insert by done; rewrite ?list_lookup_insert_ne by done.
    + done.
    + intros [= <-] Hj _ He1 He2. eauto.
    + intros Hj [= <-] _ He1 He2. intros E. eapply Hown; eauto.
    + intros. eapply (i_own _ _ _ I j1 j2); eauto.
Qed.

(** One frame and one worker change. *)
Lemma inv_1 nw G s s' i w w' f fr fr' :
  inv nw G s ->
  s_workers s !! i = Some w -> s_frames s !! f = Some fr ->
  s_workers s' = <[i := w']> (s_workers s) ->
  s_frames s' = <[f := fr']> (s_frames s) ->
  f_kind fr' = f_kind fr -> f_stk fr' = f_stk fr ->
  s_stacks s' = s_stacks s -> s_nextf s' = s_nextf s -> s_nexts s <= s_nexts s' ->
  (forall p, is_capt p fr' = is_capt p fr) ->
  (forall q, q <> f -> wtok q w' = wtok q w /\ wpend q w' = wpend q w /\ wsub q w' = wsub q w) ->
  (forall nf nc ncp nsb npd ntk nsb' npd' ntk',
    nf = nforks f (shape_of (s_frames s)) -> nc = ncalls f (shape_of (s_frames s)) ->
    ncp = ncapt f (s_frames s) ->
    nsb = sumw (wsub f) (s_workers s) -> npd = sumw (wpend f) (s_workers s) ->
    ntk = sumw (wtok f) (s_workers s) ->
    node_ok nw fr nf nc ncp nsb npd ntk ->
    nsb' + wsub f w = nsb + wsub f w' -> npd' + wpend f w = npd + wpend f w' ->
    ntk' + wtok f w = ntk + wtok f w' ->
    wsub f w <= nsb -> wpend f w <= npd -> wtok f w <= ntk ->
    node_ok nw fr' nf nc ncp nsb' npd' ntk') ->
  (forall c k x, shape_of (s_frames s) !! c = Some (k, x) -> par k = Some f ->
    kid_ok fr (k, x) -> kid_ok fr' (k, x)) ->
  (sig fr' = sig fr \/ 0 < wtok f w \/ sumw (wtok f) (s_workers s) = 0) ->
  worker_ok (s_frames s') (stk s) G i w' -> w_stk w' < s_nexts s' ->
  (eff w' = true -> forall j wj, j <> i -> s_workers s !! j = Some wj -> eff wj = true ->
    w_stk w' <> w_stk wj) ->
  inv nw G s'.
Proof.
  intros I Hi Hf Ews EF Ek Es Est Enf Ens Hcapt Hneut Hnode Hkid Hoth Hw Hws Hown.
  assert (Esh : shape_of (s_frames s') = shape_of (s_frames s)).
  { rewrite EF. by eapply shape_upd. }
  assert (Ecp : forall q, ncapt q (s_frames s') = ncapt q (s_frames s)).
  { intros q. unfold ncapt. rewrite EF. pose proof (cntm_upd (is_capt q) _ _ _ fr' Hf) as X.
    rewrite Hcapt in X. lia. }
  eapply (inv_gen nw G s s' i w w'); try done.
  - intros q frq Hq S1 S2 S3. rewrite Ecp. rewrite EF in Hq.
    destruct (decide (q = f)) as [->|Hne].
    + rewrite lookup_insert in Hq. injection Hq as <-.
      pose proof (i_node _ _ _ I f fr Hf) as N.
      pose proof (sumw_ge (wsub f) _ _ _ Hi). pose proof (sumw_ge (wpend f) _ _ _ Hi).
      pose proof (sumw_ge (wtok f) _ _ _ Hi).
      eapply Hnode; eauto.
    + rewrite lookup_insert_ne in Hq by done. pose proof (i_node _ _ _ I q frq Hq) as N.
      destruct (Hneut q Hne) as (E1 & E2 & E3).
      replace (sumw (wsub q) (s_workers s')) with (sumw (wsub q) (s_workers s)) by lia.
      replace (sumw (wpend q) (s_workers s')) with (sumw (wpend q) (s_workers s)) by lia.
      replace (sumw (wtok q) (s_workers s')) with (sumw (wtok q) (s_workers s)) by lia.
      done.
  - intros q Hq. assert (q <> f) by congruence. destruct (Hneut q H) as (? & ? & ?). done.
  - intros c k x p frp frp' Hc Hp Hfp Hfp' K. rewrite EF in Hfp'.
    destruct (decide (p = f)) as [->|Hne].
    + rewrite lookup_insert in Hfp'. injection Hfp' as <-. assert (frp = fr) as -> by congruence. eauto.
    + rewrite lookup_insert_ne in Hfp' by done. congruence.
  - intros j wj Hne Hj q Hq. rewrite EF. destruct (decide (q = f)) as [->|Hnq].
    + destruct Hoth as [Hs|[Ht|Ht]].
      * intros fr0 Hf0. exists fr'. rewrite lookup_insert. split; [done|]. congruence.
      * pose proof (tok_other _ _ _ _ _ i j w wj I Hf Hi Hj ltac:(done) Ht). lia.
      * pose proof (sumw_ge (wtok f) _ _ _ Hj). lia.
    + apply sig_agree_same. by rewrite lookup_insert_ne.
Qed.

(** Only one worker changes, and its tokens do not. *)
Lemma inv_w nw G s s' i w w' :
  inv nw G s ->
  s_workers s !! i = Some w ->
  s_workers s' = <[i := w']> (s_workers s) ->
  s_frames s' = s_frames s ->
  s_stacks s' = s_stacks s -> s_nextf s' = s_nextf s -> s_nexts s <= s_nexts s' ->
  (forall q, wtok q w' = wtok q w /\ wpend q w' = wpend q w /\ wsub q w' = wsub q w) ->
  worker_ok (s_frames s') (stk s) G i w' -> w_stk w' < s_nexts s' ->
  (eff w' = true -> forall j wj, j <> i -> s_workers s !! j = Some wj -> eff wj = true ->
    w_stk w' <> w_stk wj) ->
  inv nw G s'.
Proof.
  intros I Hi Ews EF Est Enf Ens Hneut Hw Hws Hown.
  eapply (inv_gen nw G s s' i w w'); try done.
  - by rewrite EF.
  - intros q fr Hq S1 S2 S3. destruct (Hneut q) as (E1 & E2 & E3). rewrite EF in *.
    pose proof (i_node _ _ _ I q fr Hq) as N.
    replace (sumw (wsub q) (s_workers s')) with (sumw (wsub q) (s_workers s)) by lia.
    replace (sumw (wpend q) (s_workers s')) with (sumw (wpend q) (s_workers s)) by lia.
    replace (sumw (wtok q) (s_workers s')) with (sumw (wtok q) (s_workers s)) by lia.
    done.
  - intros q _. destruct (Hneut q) as (? & ? & ?). done.
  - rewrite EF. intros. congruence.
  - intros j wj _ _ q _. rewrite EF. by apply sig_agree_same.
Qed.
