(** * Preservation of the invariant, transition by transition. *)

From stdpp Require Import prelude gmap list.
From Coq Require Import NArith Lia.
From Verif Require Import RuntimeModel RuntimeSpec RuntimeInv RuntimeStep RuntimeStep2.
Local Open Scope N_scope.

Definition good (nw : nat) (r : res) : Prop :=
  match r with
  | Next s' _ => exists G', inv nw G' s'
  | Blocked => True
  | Undef => False
  end.

(** Everything known about a running task. *)
Lemma running nw G s i w f :
  inv nw G s -> s_workers s !! i = Some w -> w_pc w = PRun f ->
  exists fr, s_frames s !! f = Some fr /\
    sumw (wpend f) (s_workers s) = 0 /\ sumw (wtok f) (s_workers s) = 1 /\
    node_ok nw fr (nforks f (shape_of (s_frames s))) (ncalls f (shape_of (s_frames s)))
      (ncapt f (s_frames s)) (sumw (wsub f) (s_workers s)) 0 1 /\
    (f_steals fr = 0 -> w_stk w = f_stk fr /\ head_is (stk s (w_stk w)) f) /\
    (f_steals fr <> 0 -> stk s (w_stk w) = [] /\ w_stk w <> f_stk fr) /\
    links (s_frames s) G (G f) (w_deque w) /\
    match f_rp fr with RSwitched d _ => d = i | _ => True end /\
    f ∉ w_deque w /\ f ∉ w_inbox w ++ w_batch w.
Proof.
  intros I Hi Hpc.
  destruct (pend_run _ _ _ _ _ f I Hi (or_introl Hpc)) as (fr & Hf & P1 & P2).
  exists fr. split; [done|]. split; [done|]. split; [done|].
  pose proof (i_node _ _ _ I f fr Hf) as N. rewrite P1, P2 in N. split; [done|].
  destruct (i_wrk _ _ _ I i w Hi) as ((W0 & W) & _). rewrite Hpc in W.
  destruct W as (fr0 & Hf0 & W1 & W2 & W3 & W4). assert (fr0 = fr) as -> by congruence.
  pose proof (sumw_ge (wtok f) _ _ _ Hi) as Hg. rewrite P2 in Hg. unfold wtok in Hg.
  rewrite Hpc in Hg. cbn in Hg. rewrite eqn_refl in Hg.
  split_and!; try done.
  - intros E. split; [auto|]. rewrite W1 by done.
    destruct (unstolen_childless _ _ _ _ _ _ _ N eq_refl E) as (N1 & N2 & _ & _).
    by eapply childless_top.
  - intros E. split; [auto|]. intros E'.
    pose proof (so_in _ _ _ (i_stk _ _ _ I) _ _ _ (shape_lookup _ _ _ Hf)) as X.
    rewrite <- E', W2 in X by done. inversion X.
  - apply occ_notin. lia.
  - apply occ_notin. rewrite occ_app. lia.
Qed.

Lemma insert_same (ws : list worker) i w : ws !! i = Some w -> ws = <[i := w]> ws.
Proof. intros H. symmetry. by apply list_insert_id. Qed.

Definition quiet (r : rpoint) : Prop :=
  match r with RRun _ | RFinal | RSignalled => True | _ => False end.

Lemma sig_agree_ne F q f fr : q <> f -> sig_agree F (<[f := fr]> F) q.
Proof. intros. apply sig_agree_same. by rewrite lookup_insert_ne. Qed.

Lemma links_upd F G a D f fr : f ∉ D -> links F G a D -> links (<[f := fr]> F) G a D.
Proof.
  intros Hn. apply links_mono; [|done]. intros q Hq. apply sig_agree_ne. intros ->. done.
Qed.

Lemma inbox_upd (F : gmap N frame) (i : nat) (l : list N) f fr :
  f ∉ l ->
  (forall q, q ∈ l -> exists fr, F !! q = Some fr /\
      match f_rp fr with RSwitched d _ => d = i | RRun _ => f_kind fr = KRoot /\ f_steals fr = 0 | _ => False end) ->
  (forall q, q ∈ l -> exists fr', <[f := fr]> F !! q = Some fr' /\
      match f_rp fr' with RSwitched d _ => d = i | RRun _ => f_kind fr' = KRoot /\ f_steals fr' = 0 | _ => False end).
Proof.
  intros Hn H q Hq. rewrite lookup_insert_ne by (intros ->; done). by apply H.
Qed.

(** The running task changes only itself. *)
Lemma inv_local nw G s s' i w f fr fr' :
  inv nw G s ->
  s_workers s !! i = Some w -> w_pc w = PRun f -> s_frames s !! f = Some fr ->
  s_frames s' = <[f := fr']> (s_frames s) ->
  s_workers s' = s_workers s -> s_stacks s' = s_stacks s -> s_nextf s' = s_nextf s -> s_nexts s' = s_nexts s ->
  f_kind fr' = f_kind fr -> f_stk fr' = f_stk fr -> f_steals fr' = f_steals fr ->
  length (f_cells fr') = length (f_cells fr) ->
  quiet (f_rp fr') -> (forall p, is_capt p fr = false) ->
  (forall nf nc ncp nsb,
    nf = nforks f (shape_of (s_frames s)) -> nc = ncalls f (shape_of (s_frames s)) ->
    node_ok nw fr nf nc ncp nsb 0 1 -> node_ok nw fr' nf nc ncp nsb 0 1) ->
  inv nw G s'.
Proof.
  intros I Hi Hpc Hf EF Ews Est Enf Ens Ek Es Est' El Hq Hcap Hnode.
  destruct (running _ _ _ _ _ _ I Hi Hpc) as (fr0 & Hf0 & P1 & P2 & N & S1 & S2 & L & _ & D1 & D2).
  assert (fr0 = fr) as -> by congruence.
  destruct (i_wrk _ _ _ I i w Hi) as ((W0 & _) & Wlt).
  assert (Hcap' : forall p, is_capt p fr' = false).
  { intros p. unfold is_capt. by destruct (f_rp fr'). }
  assert (Htw : wtok f w = 1).
  { pose proof (sumw_ge (wtok f) _ _ _ Hi). assert (1 <= wtok f w); [|lia].
    unfold wtok. rewrite Hpc. cbn. rewrite eqn_refl. lia. }
  assert (Hpw : wpend f w = 0) by (pose proof (sumw_ge (wpend f) _ _ _ Hi); lia).
  eapply (inv_1 nw G s s' i w w f fr fr'); try done.
  - rewrite Ews. by apply insert_same.
  - by rewrite Ens.
  - intros p. by rewrite Hcap, Hcap'.
  - intros nf nc ncp nsb npd ntk nsb' npd' ntk' -> -> -> -> -> -> Hn E1 E2 E3 E4 E5 E6.
    replace nsb' with (sumw (wsub f) (s_workers s)) by lia.
    replace npd' with 0 by lia. replace ntk' with 1 by lia.
    by apply Hnode.
  - intros c k x Hc Hp K. unfold kid_ok in *. rewrite El, Est', Es.
    destruct k; cbn in *; [done| |].
    + destruct K as (K1 & K2 & K3). split; [done|]. split; [done|]. by destruct (f_rp fr').
    + destruct K as (K1 & K2). split; [done|]. by destruct (f_rp fr').
  - right. left. lia.
  - rewrite EF. split; [by apply inbox_upd|]. rewrite Hpc. exists fr'.
    rewrite lookup_insert, Es, Est'. split_and!; try done.
    + intros E. by apply S1.
    + intros E. by apply S2.
    + by apply links_upd.
    + by destruct (f_rp fr').
  - by rewrite Ens.
  - intros He j wj Hne Hj Hej. eapply (i_own _ _ _ I i j); eauto.
Qed.

(** ** Local steps *)

Lemma node_run nw fr t nf nc ncp nsb npd ntk :
  node_ok nw fr nf nc ncp nsb npd ntk -> (f_rp fr = RRun t \/ exists d, f_rp fr = RSwitched d t) ->
  nf + nsb + u16max = f_steals fr + f_joins fr /\ npd = 0 /\ nc = 0 /\ ntk = 1 /\ f_joins fr <= u16max /\
  ncp + match f_eptr fr with Some _ => 1 | None => 0 end = b2n (f_eflag fr) /\
  run_scope nw fr t.
Proof.
  intros (H1 & H2 & H3 & H4 & H5) [Hr|(d & Hr)]; rewrite Hr in *; split_and!; try done; naive_solver.
Qed.

Lemma node_to_run nw fr fr' t t' nf nc ncp nsb :
  node_ok nw fr nf nc ncp nsb 0 1 -> (f_rp fr = RRun t \/ exists d, f_rp fr = RSwitched d t) ->
  f_rp fr' = RRun t' -> f_steals fr' = f_steals fr -> f_joins fr' = f_joins fr ->
  ncp + match f_eptr fr' with Some _ => 1 | None => 0 end = b2n (f_eflag fr') ->
  run_scope nw fr' t' ->
  node_ok nw fr' nf nc ncp nsb 0 1.
Proof.
  intros H Hr Er Es Ej Ee Hs. destruct (node_run _ _ _ _ _ _ _ _ _ H Hr) as (N1 & _ & N2 & _ & N3 & _).
  unfold node_ok. rewrite Er, Ej, Es. split_and!; try done.
Qed.

Lemma not_capt_run fr t p : (f_rp fr = RRun t \/ exists d, f_rp fr = RSwitched d t) -> is_capt p fr = false.
Proof. unfold is_capt. intros [->|(d & ->)]; done. Qed.

Lemma local_rr nw G s i w f fr fr' t t' tr :
  inv nw G s -> s_workers s !! i = Some w -> w_pc w = PRun f -> s_frames s !! f = Some fr ->
  (f_rp fr = RRun t \/ exists d, f_rp fr = RSwitched d t) ->
  fr' = set_rp (RRun t') fr -> (run_scope nw fr t -> run_scope nw fr' t') ->
  good nw (Next (put_frame f fr' s) tr).
Proof.
  intros I Hi Hpc Hf Hr Efr Hs. exists G. cbn.
  eapply (inv_local nw G s _ i w f fr fr'); try (rewrite Efr; done); try done.
  - intros. by eapply not_capt_run.
  - intros nf nc ncp nsb _ _ H.
    destruct (node_run _ _ _ _ _ _ _ _ _ H Hr) as (N1 & _ & N2 & _ & N3 & N4 & N5).
    eapply node_to_run; try done; try (rewrite Efr; done). auto.
Qed.

Lemma scope_ret nw fr t :
  run_scope nw fr t -> (exists v, t = Ret v) \/ (exists e, t = Throw e) ->
  f_steals fr = 0 /\ f_eflag fr = false.
Proof.
  intros (n & x & Hs & H1 & H2 & H3) Ht.
  assert (n = 0 /\ x = false) as [-> ->].
  { destruct Ht as [(v & ->)|(e & ->)]; inversion Hs; done. }
  split; [lia|]. destruct (f_eflag fr); [|done]. destruct H3; [done|done|lia].
Qed.

(** A frame's data that does not matter for the invariant. *)
Lemma inv_data nw G s s' i w p frp frp' :
  inv nw G s -> s_workers s !! i = Some w -> s_frames s !! p = Some frp ->
  s_frames s' = <[p := frp']> (s_frames s) ->
  s_workers s' = s_workers s -> s_stacks s' = s_stacks s -> s_nextf s' = s_nextf s -> s_nexts s' = s_nexts s ->
  sig frp' = sig frp -> f_joins frp' = f_joins frp -> f_eflag frp' = f_eflag frp -> f_eptr frp' = f_eptr frp ->
  inv nw G s'.
Proof.
  intros I Hi Hp EF Ews Est Enf Ens Hsig Ej Ee Eep. injection Hsig as E1 E2 E3 E4 E5.
  eapply (inv_1 nw G s s' i w w p frp frp'); try done.
  - rewrite Ews. by apply insert_same.
  - by rewrite Ens.
  - intros q. unfold is_capt. by rewrite E5, E1.
  - intros nf nc ncp nsb npd ntk nsb' npd' ntk' _ _ _ _ _ _ Hn X1 X2 X3 X4 X5 X6.
    replace nsb' with nsb by lia. replace npd' with npd by lia. replace ntk' with ntk by lia.
    unfold node_ok, run_scope in *. rewrite E1, E3, E5, Ej, Ee, Eep. done.
  - intros c k x _ _ K. unfold kid_ok in *. rewrite E2, E3, E4, E5. done.
  - left. unfold sig. congruence.
  - destruct (i_wrk _ _ _ I i w Hi) as (W & _). eapply worker_ok_mono; [..|exact W]; try done.
    + intros q _ fr Hf. rewrite EF. destruct (decide (q = p)) as [->|].
      * rewrite lookup_insert. exists frp'. split; [done|]. unfold sig. congruence.
      * rewrite lookup_insert_ne by done. eauto.
    + intros q _ fr Hf. rewrite EF. destruct (decide (q = p)) as [->|].
      * rewrite lookup_insert. exists frp'. split; [done|]. congruence.
      * rewrite lookup_insert_ne by done. eauto.
  - rewrite Ens. by eapply i_wrk.
  - intros He j wj Hne Hj Hej. eapply (i_own _ _ _ I i j); eauto.
Qed.

Lemma local_final nw G s i w f fr t s' :
  inv nw G s -> s_workers s !! i = Some w -> w_pc w = PRun f -> s_frames s !! f = Some fr ->
  f_rp fr = RRun t -> (exists v, t = Ret v) \/ (exists e, t = Throw e) ->
  s_frames s' = <[f := set_rp RFinal fr]> (s_frames s) ->
  s_workers s' = s_workers s -> s_stacks s' = s_stacks s -> s_nextf s' = s_nextf s -> s_nexts s' = s_nexts s ->
  inv nw G s'.
Proof.
  intros I Hi Hpc Hf Hr Ht EF Ews Est Enf Ens.
  eapply (inv_local nw G s s' i w f fr (set_rp RFinal fr)); try done.
  - intros. eapply not_capt_run. by left.
  - intros nf nc ncp nsb _ _ H.
    destruct (node_run _ _ _ _ _ _ _ _ _ H (or_introl Hr)) as (N1 & _ & N2 & _ & N3 & N4 & N5).
    destruct (scope_ret _ _ _ N5 Ht) as [E1 E2].
    unfold node_ok. cbn. rewrite E1, E2 in *. split_and!; try done; lia.
Qed.

(** ** Handing an exception to the parent *)

(** A task whose child can still hand it an exception tolerates one. *)
Lemma parent_tolerates nw frp nf nc ncp nsb npd ntk kd x p :
  node_ok nw frp nf nc ncp nsb npd ntk ->
  kid_ok frp (kd, x) -> (exists i, kd = KFork p i false /\ 1 <= nf \/ kd = KCall p i false /\ 1 <= nc) ->
  forall frp' ncp', sig frp' = sig frp -> f_joins frp' = f_joins frp ->
  ncp' + match f_eptr frp' with Some _ => 1 | None => 0 end = b2n (f_eflag frp') ->
  node_ok nw frp' nf nc ncp' nsb npd ntk.
Proof.
  intros (N1 & N2 & N3 & N4 & N5) K (i & Hk) frp' ncp' Hsig Ej Ee.
  injection Hsig as E1 E2 E3 E4 E5.
  unfold node_ok, run_scope in *. rewrite E1, E3, E5, Ej. split_and!; try done.
  destruct (f_rp frp) as [t|m st k pre|m st k|k|d t|e| |] eqn:Er; try done.
  - destruct N5 as (N5 & N6 & n & y & M1 & M2 & M3 & M4). split_and!; try done.
    exists n, y. split_and!; try done. intros _.
    destruct Hk as [[-> Hk]|[-> Hk]]; [right; lia|lia].
  - destruct N5 as (N5 & n & y & M1 & M2 & M3 & M4). split; [done|].
    exists n, y. split_and!; try done. intros _.
    destruct Hk as [[-> Hk]|[-> Hk]]; [|lia].
    unfold kid_ok in K. cbn in K. rewrite Er in K. destruct K as [_ K].
    destruct pre; [by right; left|]. right; right. lia.
  - destruct N5 as (N5 & N6 & n & y & M1 & M2 & M3). split_and!; try done.
    exists n, y. split_and!; try done. intros _.
    destruct Hk as [[-> Hk]|[-> Hk]]; [right; right; lia|].
    unfold kid_ok in K. cbn in K. rewrite Er in K. destruct K as (_ & _ & K). by right; left.
  - destruct N5 as (N5 & N6 & n & y & M1 & M2 & M3 & M4). split_and!; try done.
    exists n, y. split_and!; try done. intros _.
    destruct Hk as [[-> Hk]|[-> Hk]]; [right; lia|lia].
  - exfalso. destruct Hk as [[-> Hk]|[-> Hk]]; lia.
  - exfalso. destruct Hk as [[-> Hk]|[-> Hk]]; lia.
  - exfalso. destruct Hk as [[-> Hk]|[-> Hk]]; lia.
Qed.

Lemma kid_counts sh c k x p :
  sh !! c = Some (k, x) -> par k = Some p ->
  match k with KRoot => True | KFork _ _ _ => 1 <= nforks p sh | KCall _ _ _ => 1 <= ncalls p sh end.
Proof.
  intros H Hp. destruct k; cbn in Hp; try done; injection Hp as ->.
  - pose proof (cntm_pos (is_call p) _ _ _ H) as X. unfold is_call in X at 1. cbn in X.
    rewrite bool_decide_eq_true_2 in X by done. specialize (X eq_refl). unfold ncalls. lia.
  - pose proof (cntm_pos (is_fork p) _ _ _ H) as X. unfold is_fork in X at 1. cbn in X.
    rewrite bool_decide_eq_true_2 in X by done. specialize (X eq_refl). unfold nforks. lia.
Qed.

Lemma inv_capt nw G s s' i w f fr fr' p frp frp' :
  inv nw G s -> s_workers s !! i = Some w -> w_pc w = PRun f -> s_frames s !! f = Some fr ->
  s_frames s !! p = Some frp ->
  (exists j, f_kind fr = KFork p j false \/ f_kind fr = KCall p j false) ->
  s_frames s' = <[p := frp']> (<[f := fr']> (s_frames s)) ->
  s_workers s' = s_workers s -> s_stacks s' = s_stacks s -> s_nextf s' = s_nextf s -> s_nexts s' = s_nexts s ->
  sig frp' = sig frp -> f_joins frp' = f_joins frp ->
  f_kind fr' = f_kind fr -> f_stk fr' = f_stk fr -> f_steals fr' = f_steals fr -> f_cells fr' = f_cells fr ->
  ((exists t e, f_rp fr = RRun t /\ ((exists v, t = Ret v) \/ (exists e, t = Throw e)) /\
      f_rp fr' = RCapture e /\ f_eflag frp = false /\ f_eflag frp' = true /\ f_eptr frp' = f_eptr frp) \/
   (exists e e', f_rp fr = RCapture e /\ f_rp fr' = RFinal /\ f_eflag frp' = f_eflag frp /\ f_eptr frp' = Some e')) ->
  f_joins fr' = f_joins fr -> f_eflag fr' = f_eflag fr -> f_eptr fr' = f_eptr fr ->
  inv nw G s'.
Proof.
  intros I Hi Hpc Hf Hp Hkd EF Ews Est Enf Ens Hsig Ejp Ek Es Est' Ec Hcase Ej Ee Eep.
  pose proof Hsig as Hsig'. injection Hsig' as E1 E2 E3 E4 E5.
  destruct (running _ _ _ _ _ _ I Hi Hpc) as (fr0 & Hf0 & P1 & P2 & N & S1 & S2 & L & _ & D1 & D2).
  assert (fr0 = fr) as -> by congruence. clear Hf0.
  assert (Hpar : par (f_kind fr) = Some p) by (destruct Hkd as (j & [-> | ->]); done).
  assert (Hfs := shape_lookup _ _ _ Hf).
  destruct (i_kid _ _ _ I f _ _ p frp Hfs Hpar Hp) as (K & Klt).
  assert (Hne : p <> f) by lia.
  assert (Hp' : <[f := fr']> (s_frames s) !! p = Some frp) by (by rewrite lookup_insert_ne).
  assert (Hcnt := kid_counts _ _ _ _ _ Hfs Hpar).
  assert (Hk' : exists j, f_kind fr = KFork p j false /\ 1 <= nforks p (shape_of (s_frames s)) \/
                          f_kind fr = KCall p j false /\ 1 <= ncalls p (shape_of (s_frames s))).
  { destruct Hkd as (j & [E|E]); exists j; rewrite E in Hcnt; [left|right]; done. }
  assert (Esh : shape_of (s_frames s') = shape_of (s_frames s)).
  { rewrite EF. erewrite (shape_upd _ p frp frp'); try done. by eapply shape_upd. }
  assert (Hcp : forall q, ncapt q (s_frames s') + b2n (is_capt q fr) = ncapt q (s_frames s) + b2n (is_capt q fr')).
  { intros q. unfold ncapt. rewrite EF.
    pose proof (cntm_upd (is_capt q) _ _ _ frp' Hp') as X.
    pose proof (cntm_upd (is_capt q) _ _ _ fr' Hf) as Y.
    assert (is_capt q frp' = is_capt q frp) as Z by (unfold is_capt; by rewrite E5, E1).
    rewrite Z in X. lia. }
  assert (Hcq : forall q, q <> p -> is_capt q fr = false /\ is_capt q fr' = false).
  { intros q Hq. unfold is_capt. rewrite Ek, Hpar. rewrite bool_decide_eq_false_2 by congruence.
    by destruct (f_rp fr), (f_rp fr'). }
  assert (Hfq : forall q, q <> p -> q <> f -> s_frames s' !! q = s_frames s !! q).
  { intros. rewrite EF, !lookup_insert_ne by done. done. }
  assert (Hf' : s_frames s' !! f = Some fr') by (by rewrite EF, lookup_insert_ne, lookup_insert).
  assert (Hp'' : s_frames s' !! p = Some frp') by (by rewrite EF, lookup_insert).
  eapply (inv_gen nw G s s' i w w); try done.
  - rewrite Ews. by apply insert_same.
  - by rewrite Ens.
  - intros q frq Hq X1 X2 X3. rewrite Ews in *. pose proof (Hcp q) as Hc.
    destruct (decide (q = f)) as [->|Hqf]; [|destruct (decide (q = p)) as [->|Hqp]].
    + assert (frq = fr') as -> by congruence. rewrite P1, P2.
      destruct (Hcq f ltac:(done)) as [C1 C2]. rewrite C1, C2 in Hc. cbn in Hc.
      replace (ncapt f (s_frames s')) with (ncapt f (s_frames s)) by lia.
      destruct Hcase as [(t & e & Er & Ht & Er' & _)|(e & e' & Er & Er' & _)].
      * destruct (node_run _ _ _ _ _ _ _ _ _ N (or_introl Er)) as (N1 & _ & N2 & _ & N3 & N4 & N5).
        destruct (scope_ret _ _ _ N5 Ht) as [F1 F2].
        unfold node_ok. rewrite Er', Ej, Eep, Ee, Est', Ek, F1, F2 in *.
        split_and!; try done; try lia.
        destruct Hkd as (j & [E|E]); exists p, j; rewrite E; [by right|by left].
      * destruct N as (N1 & N2 & N3 & N4 & N5). rewrite Er in *.
        unfold node_ok. rewrite Er', Ej, Eep, Ee, Est' in *.
        destruct N5 as (N5 & N6 & N7 & N8 & N9 & _). split_and!; done.
    + assert (frq = frp') as -> by congruence.
      pose proof (i_node _ _ _ I p frp Hp) as Np.
      eapply (parent_tolerates _ _ _ _ _ _ _ _ _ _ _ Np K Hk'); try done.
      destruct Np as (_ & _ & Np & _).
      destruct Hcase as [(t & e & Er & Ht & Er' & F1 & F2 & F3)|(e & e' & Er & Er' & F1 & F2)].
      * unfold is_capt in Hc. rewrite Er, Er' in Hc. rewrite Ek, Hpar in Hc.
        rewrite bool_decide_eq_true_2 in Hc by done. cbn in Hc. rewrite F1 in Np. rewrite F2, F3. cbn in *. lia.
      * unfold is_capt in Hc. rewrite Er, Er' in Hc. rewrite Hpar in Hc.
        rewrite bool_decide_eq_true_2 in Hc by done. cbn in Hc. rewrite F1, F2.
        destruct (f_eflag frp), (f_eptr frp); cbn in *; lia.
    + rewrite Hfq in Hq by done. destruct (Hcq q Hqp) as [C1 C2]. rewrite C1, C2 in Hc. cbn in Hc.
      replace (ncapt q (s_frames s')) with (ncapt q (s_frames s)) by lia. by apply (i_node _ _ _ I).
  - intros c k x q fq fq' Hc Hq Hfq0 Hfq' Kq.
    destruct (decide (q = f)) as [->|Hqf]; [|destruct (decide (q = p)) as [->|Hqp]].
    + exfalso. destruct N as (_ & N2 & _ & _ & N5).
      eapply kid_count; [exact Hc|exact Hq| |];
        destruct Hcase as [(t & e & Er & Ht & _)|(e & e' & Er & _)]; rewrite Er in N2, N5; try done.
      * destruct N5 as (N5 & _ & N6). destruct (scope_ret _ _ _ N6 Ht) as [F1 F2].
        pose proof (i_node _ _ _ I f fr Hf) as (_ & _ & _ & N7 & _). lia.
      * lia.
    + assert (fq' = frp') as -> by congruence. assert (fq = frp) as -> by congruence.
      unfold kid_ok in *. rewrite E2, E3, E4, E5. done.
    + rewrite Hfq in Hfq' by done. congruence.
  - intros j wj Hnj Hj q Hq.
    assert (q <> f).
    { intros ->. pose proof (tok_other _ _ _ f fr i j w wj I Hf Hi Hj ltac:(done)) as X.
      rewrite X in Hq; [lia|]. unfold wtok. rewrite Hpc. cbn. rewrite eqn_refl. lia. }
    destruct (decide (q = p)) as [->|].
    + intros fr0 Hf0. exists frp'. split; [done|]. congruence.
    + apply sig_agree_same. by apply Hfq.
  - destruct (i_wrk _ _ _ I i w Hi) as ((W0 & _) & _).
    assert (HSA : forall q, q <> f -> sig_agree (s_frames s) (s_frames s') q).
    { intros q Hq. destruct (decide (q = p)) as [->|].
      - intros fr0 Hf0. exists frp'. split; [done|]. congruence.
      - apply sig_agree_same. by apply Hfq. }
    split.
    + intros q Hq. destruct (W0 q Hq) as (frq & Hq1 & Hq2).
      assert (q <> f) by (intros ->; done).
      destruct (HSA q H _ Hq1) as (frq' & Hq' & Hs). injection Hs as X1 X2 X3 X4 X5.
      exists frq'. rewrite X1, X3, X5. done.
    + rewrite Hpc. exists fr'. rewrite Est', Es. split_and!; try done.
      * intros E. by apply S1.
      * intros E. by apply S2.
      * eapply links_mono; [| |exact L]; [|done]. intros q Hq. apply HSA. intros ->. done.
      * destruct Hcase as [(t & e & _ & _ & -> & _)|(e & e' & _ & -> & _)]; done.
  - rewrite Ens. by eapply i_wrk.
  - intros He j wj Hnj Hj Hej. eapply (i_own _ _ _ I i j); eauto.
Qed.
