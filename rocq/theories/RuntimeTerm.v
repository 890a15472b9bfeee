(** * Termination of the runtime. *)

From stdpp Require Import prelude gmap list.
From Coq Require Import NArith Lia Wellfounded Relation_Operators.
From Verif Require Import RuntimeModel RuntimeSpec RuntimeInv RuntimeStep RuntimeStep2 RuntimeStep3
  RuntimeStep4 RuntimeStep5 RuntimeStep6 RuntimeStep7 RuntimeSafe RuntimeHist RuntimeHist2
  RuntimeHist3 RuntimeHist4 RuntimeThms RuntimeTermSpec RuntimeTermOrder.
Local Open Scope N_scope.

(** ** What a task may expect from its children *)
Section env.
Context (af : bool).

Record env (h : list event) (f : N) (X : exn -> Prop) (L : list (cell -> Prop)) : Prop := {
  e_len : length L = length (kids_in f h);
  e_done : forall j c st (P : cell -> Prop) o, kids_in f h !! j = Some (c, st) -> L !! j = Some P ->
    outcome_in c h = Some o -> P (cell_of st o);
  e_todo : forall j c st (P : cell -> Prop) o t, kids_in f h !! j = Some (c, st) -> L !! j = Some P ->
    outcome_in c h = None -> body_in c h = Some t -> eval af t o -> P (cell_of st o);
  e_pend : forall e, e ∈ pending_in f h -> X e;
  e_fut : forall c e t, (c, false) ∈ kids_in f h -> outcome_in c h = None -> body_in c h = Some t ->
    eval af t (OExc e) -> X e
}.

Lemma kid_body h p c st : (c, st) ∈ kids_in p h -> body_in c h <> None.
Proof.
  induction h as [|e h IH]; cbn; [by intros ?%elem_of_nil|].
  destruct e; cbn; try done; intros Hin; repeat case_decide; subst; try done; auto;
    apply elem_of_app in Hin as [Hin|Hin%elem_of_list_singleton]; auto; congruence.
Qed.

Lemma parent_kid h p c st : parent_in c h = Some (p, st) -> (c, st) ∈ kids_in p h.
Proof.
  induction h as [|e h IH]; cbn; [done|].
  destruct e; try done; intros Hin; repeat case_decide; subst; simplify_eq; try done; auto;
    try (apply elem_of_app; right; by left); apply elem_of_app; left; auto.
Qed.

Lemma outcome_body h c o : evs_ok af h -> outcome_in c h = Some o -> body_in c h <> None.
Proof.
  induction h as [|e h IH]; cbn; [done|]. intros (He & Hok).
  destruct e; cbn; intros Ho; try (by auto); try (case_decide; [done|by auto]).
  - case_decide; subst; [|by auto]. destruct He as (_ & _ & _ & t & -> & _). done.
Qed.

Definition touches (f : N) (e : event) : Prop :=
  match e with EvFork p _ _ _ | EvCall p _ _ _ | EvStash p _ => p = f | _ => False end.

Lemma env_ev e h f X L : ev_ok af e h -> ~ touches f e -> env h f X L -> env (e :: h) f X L.
Proof.
  intros Hok Ht [E1 E2 E3 E4 E5].
  assert (Hkb : forall c c' st, (c, st) ∈ kids_in f h -> body_in c' h = None -> c' <> c).
  { intros c c' st Hc Hb ->. by apply kid_body in Hc. }
  destruct e; cbn in Hok, Ht; try (by split).
  - split; cbn; try done.
    + intros j c st P o t' Hj HP Ho. rewrite decide_False; [by eapply E3|].
      eapply Hkb; [by eapply elem_of_list_lookup_2|done].
    + intros c e t' Hc Ho. rewrite decide_False; [by eapply E5|]. by eapply Hkb.
  - split; cbn; rewrite ?(decide_False _ _ Ht); try done.
    + intros j c' st' P o t' Hj HP Ho. rewrite decide_False; [by eapply E3|].
      eapply Hkb; [by eapply elem_of_list_lookup_2|by destruct Hok as (_ & ? & _)].
    + intros c' e t' Hc Ho. rewrite decide_False; [by eapply E5|]. eapply Hkb; [done|by destruct Hok as (_ & ? & _)].
  - split; cbn; rewrite ?(decide_False _ _ Ht); try done.
    + intros j c' st' P o t' Hj HP Ho. rewrite decide_False; [by eapply E3|].
      eapply Hkb; [by eapply elem_of_list_lookup_2|by destruct Hok as (_ & ? & _)].
    + intros c' e t' Hc Ho. rewrite decide_False; [by eapply E5|]. eapply Hkb; [done|by destruct Hok as (_ & ? & _)].
  - rename f0 into c0. destruct Hok as (Hn & _ & _ & t0 & Hb & Hev & _). split; cbn; try done.
    + intros j c st P o' Hj HP. case_decide; subst; [|by eapply E2].
      intros E. injection E as <-. by eapply E3.
    + intros j c st P o' t' Hj HP. case_decide; subst; [done|by eapply E3].
    + intros e He. destruct o as [v|e0]; [by apply E4|]. case_decide as Hp; [|by apply E4].
      apply elem_of_union in He as [He|He%elem_of_singleton]; [by apply E4|]. subst e0.
      apply parent_kid in Hp. by eapply E5.
    + intros c e t' Hc. case_decide; [done|by eapply E5].
  - split; cbn; rewrite ?(decide_False _ _ Ht); done.
  - split; cbn; try done. intros e'. case_decide; [by intros ?%elem_of_empty|apply E4].
  - split; cbn; try done. intros e'. case_decide; [by intros ?%elem_of_empty|apply E4].
Qed.

Lemma env_evs l h f X L : evs_ok af (l ++ h) -> (forall e, e ∈ l -> ~ touches f e) -> env h f X L -> env (l ++ h) f X L.
Proof.
  induction l as [|e l IH]; cbn; [done|]. intros (He & Hok) Ht E.
  apply env_ev; [done|apply Ht; by left|]. apply IH; [done| |done]. intros e' He'. apply Ht. by right.
Qed.

Lemma env_child (fk : bool) h f c st t X L :
  let e := if fk then EvFork f c st t else EvCall f c st t in
  f <> c -> evs_ok af (e :: h) -> env h f X L ->
  env (e :: h) f (fun e => X e \/ may_throw af st t e) (L ++ [may_leave af st t]).
Proof.
  intros e Hne (Hok & Hev) [E1 E2 E3 E4 E5].
  assert (Hb : body_in c h = None) by (destruct fk; cbn in Hok; by destruct Hok as (_ & ? & _)).
  assert (Ho : outcome_in c h = None).
  { destruct (outcome_in c h) eqn:E; [|done]. by apply outcome_body in E. }
  assert (Hkids : kids_in f (e :: h) = kids_in f h ++ [(c, st)]) by (destruct fk; cbn; by rewrite decide_True).
  assert (Hout : forall c', outcome_in c' (e :: h) = outcome_in c' h) by (by destruct fk).
  assert (Hbody : forall c', body_in c' (e :: h) = if decide (c = c') then Some t else body_in c' h) by (by destruct fk).
  assert (Hpend : pending_in f (e :: h) = pending_in f h) by (by destruct fk).
  assert (Hsplit : forall j c' st' P, (kids_in f h ++ [(c, st)]) !! j = Some (c', st') ->
    (L ++ [may_leave af st t]) !! j = Some P ->
    (kids_in f h !! j = Some (c', st') /\ L !! j = Some P) \/ (c' = c /\ st' = st /\ P = may_leave af st t)).
  { intros j c' st' P H1 H2. apply lookup_app_Some in H1 as [H1|(H1 & H3)].
    - left. split; [done|]. rewrite lookup_app_l in H2; [done|]. rewrite E1. by eapply lookup_lt_Some.
    - right. rewrite lookup_app_r in H2 by lia. rewrite E1 in H2.
      destruct (j - length (kids_in f h))%nat; [|done]. by simplify_eq/=. }
  assert (Hnk : forall j st', kids_in f h !! j = Some (c, st') -> False).
  { intros j st' Hj. apply elem_of_list_lookup_2 in Hj. by apply kid_body in Hj. }
  split; rewrite ?Hkids, ?Hpend.
  - rewrite !app_length. cbn. lia.
  - intros j c' st' P o H1 H2. rewrite Hout. intros H3. destruct (Hsplit _ _ _ _ H1 H2) as [[? ?]|(-> & -> & ->)]; [by eapply E2|congruence].
  - intros j c' st' P o t' H1 H2. rewrite Hout, Hbody. intros H3. case_decide; subst.
    + intros E Ev. injection E as <-. destruct (Hsplit _ _ _ _ H1 H2) as [[? ?]|(_ & -> & ->)]; [by exfalso; eapply Hnk|].
      by exists o.
    + destruct (Hsplit _ _ _ _ H1 H2) as [[? ?]|(-> & -> & ->)]; [by eapply E3|done].
  - intros e' He. left. auto.
  - intros c' e' t' Hc. rewrite Hout, Hbody. intros H3. apply elem_of_app in Hc as [Hc|Hc%elem_of_list_singleton].
    + rewrite decide_False; [left; by eapply E5|]. intros ->. by apply kid_body in Hc.
    + injection Hc as -> <-. rewrite decide_True by done. intros E Ev. injection E as <-. right. by split.
Qed.

Lemma env_fresh h c : kids_in c h = [] -> pending_in c h = ∅ -> env h c (fun _ => False) [].
Proof. intros Ek Ep. split; rewrite ?Ek, ?Ep; try done; intros; set_solver. Qed.

Lemma env_stash h f e X L : env h f X L -> env (EvStash f e :: h) f (fun e' => X e' \/ e' = e) L.
Proof.
  intros [E1 E2 E3 E4 E5]. split; cbn; try done.
  - rewrite decide_True by done. intros e' [?|?%elem_of_singleton]%elem_of_union; auto.
  - intros. left. by eapply E5.
Qed.

Lemma results_env h f X L :
  (forall c st, (c, st) ∈ kids_in f h -> ended h c) -> env h f X L ->
  Forall2 (fun P cl => P cl) L (results_in f h).
Proof.
  intros He [E1 E2 E3 E4 E5]. apply Forall2_same_length_lookup. split; [by rewrite results_length|].
  intros j P cl HP Hcl. unfold results_in in Hcl. rewrite list_lookup_fmap in Hcl.
  destruct (kids_in f h !! j) as [[c st]|] eqn:Hj; [|done]. cbn in Hcl. injection Hcl as <-.
  destruct (He c st) as (o & Ho); [by eapply elem_of_list_lookup_2|]. rewrite Ho. by eapply E2.
Qed.

Lemma env_joined h h' f cs :
  cs = results_in f h' -> kids_in f h' = kids_in f h ->
  (forall c st, (c, st) ∈ kids_in f h' -> ended h' c) -> pending_in f h' = ∅ ->
  env h' f (fun _ => False) (map eq cs).
Proof.
  intros -> Ek He Hp. split.
  - rewrite map_length. apply results_length.
  - intros j c st P o Hj HP Ho. rewrite list_lookup_fmap in HP. unfold results_in in HP.
    rewrite list_lookup_fmap, Hj in HP. cbn in HP. rewrite Ho in HP. injection HP as <-. done.
  - intros j c st P o t Hj HP Ho. apply elem_of_list_lookup_2 in Hj. apply He in Hj as (? & ?). congruence.
  - rewrite Hp. set_solver.
  - intros c e t Hc Ho. apply He in Hc as (? & ?). congruence.
Qed.

(** The newest child's result is known. *)
Lemma env_last h f X L : env h f X L -> last_ended h f ->
  exists L0 P, L = L0 ++ [P] /\ P (fres_last (results_in f h)) /\
    env h f X (L0 ++ [eq (fres_last (results_in f h))]).
Proof.
  intros E (c & st & Hl & o & Ho). pose proof E as [E1 E2 E3 E4 E5].
  destruct L as [|P0 L'] using rev_ind; cbn in E1.
  { destruct (kids_in f h); [done|]. cbn in E1. lia. }
  clear IHL'. rename P0 into P, L' into L0. exists L0, P. split; [done|].
  assert (Hlast : kids_in f h !! length L0 = Some (c, st)).
  { rewrite last_lookup in Hl. rewrite <- E1, app_length in Hl. cbn in Hl. by replace (pred (length L0 + 1))%nat with (length L0) in Hl by lia. }
  assert (Hcell : fres_last (results_in f h) = cell_of st o).
  { unfold fres_last. rewrite last_lookup, results_length, <- E1, app_length. cbn [length].
    replace (pred (length L0 + 1))%nat with (length L0) by lia. by rewrite (results_lookup _ _ _ _ _ _ Hlast Ho). }
  rewrite Hcell. assert (HP : P (cell_of st o)).
  { eapply E2; [exact Hlast| |exact Ho]. rewrite lookup_app_r, Nat.sub_diag by lia. done. }
  split; [done|].
  assert (Hsplit : forall j c' st' P', kids_in f h !! j = Some (c', st') -> (L0 ++ [eq (cell_of st o)]) !! j = Some P' ->
    ((L0 ++ [P]) !! j = Some P') \/ (c' = c /\ st' = st /\ P' = eq (cell_of st o))).
  { intros j c' st' P' H1 H2. apply lookup_app_Some in H2 as [H2|(H2 & H3)].
    - left. by apply lookup_app_l_Some.
    - right. destruct (j - length L0)%nat eqn:Ej; [|done]. cbn in H3. injection H3 as <-.
      assert (j = length L0) as -> by lia. by simplify_eq. }
  split; try done.
  - rewrite app_length in *. cbn in *. lia.
  - intros j c' st' P' o' H1 H2 H3. destruct (Hsplit _ _ _ _ H1 H2) as [?|(-> & -> & ->)]; [by eapply E2|congruence].
  - intros j c' st' P' o' t H1 H2 H3. destruct (Hsplit _ _ _ _ H1 H2) as [?|(-> & -> & ->)]; [by eapply E3|congruence].
Qed.

(** ** The invariant *)

Record ti (M : gmap N node) (s : state) (h : list event) : Prop := {
  ti_dom : forall f, (fun n : node => n.1.1) <$> M !! f = f_rp <$> s_frames s !! f;
  ti_env : forall f rp X L, M !! f = Some (rp, X, L) -> env h f X L
}.

(** Steps that change no task. *)
Definition pcr (p : pc) : N :=
  match p with
  | PIdle => 0 | PSelf => 1 | PLoseRel => 1 | PSwRel _ => 2 | PSub _ => 2 | PFinal _ => 3
  | PJSusp _ => 4 | PRun _ => 5 | PStolen _ => 6
  end.
Definition wr (w : worker) : N :=
  pcr (w_pc w) + 7 * N.of_nat (length (w_deque w)) + 7 * N.of_nat (length (w_inbox w)) + 6 * N.of_nat (length (w_batch w)).
Definition rank (s : state) : N := sumw wr (s_workers s).

Definition below (M' M : gmap N node) : Prop := clos_trans _ (gless (nless af)) M' M.

Definition fine (M : gmap N node) (s s' : state) (h' : list event) : Prop :=
  exists M', ti M' s' h' /\ (below M' M \/ M' = M /\ rank s' < rank s).

Section step.
Context (M : gmap N node) (s s' : state) (h : list event) (tr : list event).
Hypothesis HT : ti M s h.
Hypothesis Hok : evs_ok af (tr ++ h).

Lemma node_at f fr : s_frames s !! f = Some fr -> exists X L, M !! f = Some (f_rp fr, X, L) /\ env h f X L.
Proof using HT.
  intros Hf. pose proof (ti_dom _ _ _ HT f) as E. rewrite Hf in E. cbn in E.
  destruct (M !! f) as [[[rp X] L]|] eqn:HM; [|done]. cbn in E. injection E as ->. exists X, L.
  split; [done|]. by eapply ti_env.
Qed.

Lemma node_none f : s_frames s !! f = None -> M !! f = None.
Proof using HT.
  intros Hf. pose proof (ti_dom _ _ _ HT f) as E. rewrite Hf in E. cbn in E. by destruct (M !! f).
Qed.

Lemma fine_rank :
  (forall f, f_rp <$> s_frames s' !! f = f_rp <$> s_frames s !! f) ->
  (forall e f, e ∈ tr -> ~ touches f e) -> rank s' < rank s -> fine M s s' (tr ++ h).
Proof using HT Hok.
  intros HF Ht Hr. exists M. split; [|by right]. split.
  - intros f. rewrite HF. apply HT.
  - intros f rp X L Hf. apply env_evs; [done|by intros e; apply Ht|]. by eapply ti_env.
Qed.

Lemma fine_one f fr rp' :
  s_frames s !! f = Some fr ->
  (forall g, f_rp <$> s_frames s' !! g = if decide (f = g) then Some rp' else f_rp <$> s_frames s !! g) ->
  (forall e g, e ∈ tr -> g <> f -> ~ touches g e) ->
  (forall X L, M !! f = Some (f_rp fr, X, L) -> env h f X L ->
     exists X' L', nless af (rp', X', L') (f_rp fr, X, L) /\ env (tr ++ h) f X' L') ->
  fine M s s' (tr ++ h).
Proof using HT Hok.
  intros Hf HF Ht HN. destruct (node_at f fr Hf) as (X & L & HM & HE).
  destruct (HN X L HM HE) as (X' & L' & Hless & HE').
  exists (<[f := (rp', X', L')]> M). split.
  - split.
    + intros g. rewrite HF. case_decide; subst; [by rewrite lookup_insert|]. rewrite lookup_insert_ne by done. apply HT.
    + intros g rp1 X1 L1. destruct (decide (g = f)) as [->|Hne].
      * rewrite lookup_insert. intros E. by injection E as <- <- <-.
      * rewrite lookup_insert_ne by done. intros Hg. apply env_evs; [done|intros e He; by eapply Ht|]. by eapply ti_env.
  - left. apply t_step. by eapply gless_one.
Qed.

Lemma fine_child f fr c rp' t X' L' :
  s_frames s !! f = Some fr -> s_frames s !! c = None ->
  (forall g, f_rp <$> s_frames s' !! g =
     if decide (c = g) then Some (RRun t) else if decide (f = g) then Some rp' else f_rp <$> s_frames s !! g) ->
  (forall e g, e ∈ tr -> g <> f -> ~ touches g e) ->
  (forall X L, M !! f = Some (f_rp fr, X, L) -> env h f X L ->
     nless af (rp', X' X, L' L) (f_rp fr, X, L) /\ nless af (RRun t, fun _ => False, []) (f_rp fr, X, L) /\ env (tr ++ h) f (X' X) (L' L)) ->
  env (tr ++ h) c (fun _ => False) [] ->
  fine M s s' (tr ++ h).
Proof using HT Hok.
  intros Hf Hc HF Ht HN Hnew. destruct (node_at f fr Hf) as (X & L & HM & HE).
  destruct (HN X L HM HE) as (Hless & Hless2 & HE'). assert (f <> c) by congruence.
  exists (<[c := (RRun t, fun _ => False, [])]> (<[f := (rp', X' X, L' L)]> M)). split.
  - split.
    + intros g. rewrite HF. destruct (decide (c = g)) as [->|]; [by rewrite lookup_insert|].
      rewrite lookup_insert_ne by done.
      case_decide; subst; [by rewrite lookup_insert|]. rewrite lookup_insert_ne by done. apply HT.
    + intros g rp1 X1 L1. destruct (decide (g = c)) as [->|Hne2].
      { rewrite lookup_insert. intros E. by injection E as <- <- <-. }
      rewrite lookup_insert_ne by done. destruct (decide (g = f)) as [->|Hne].
      * rewrite lookup_insert. intros E. by injection E as <- <- <-.
      * rewrite lookup_insert_ne by done. intros Hg. apply env_evs; [done|intros e He; by eapply Ht|]. by eapply ti_env.
  - left. apply t_step. eapply gless_two; try done. by apply node_none.
Qed.

Lemma fine_del f fr :
  s_frames s !! f = Some fr ->
  (forall g, f_rp <$> s_frames s' !! g = if decide (f = g) then None else f_rp <$> s_frames s !! g) ->
  (forall e g, e ∈ tr -> ~ touches g e) ->
  fine M s s' (tr ++ h).
Proof using HT Hok.
  intros Hf HF Ht. destruct (node_at f fr Hf) as (X & L & HM & HE).
  exists (delete f M). split.
  - split.
    + intros g. rewrite HF. case_decide; subst; [by rewrite lookup_delete|]. rewrite lookup_delete_ne by done. apply HT.
    + intros g rp1 X1 L1 (Hne & Hg)%lookup_delete_Some. apply env_evs; [done|intros e He; by eapply Ht|]. by eapply ti_env.
  - left. apply t_step. by eapply gless_del.
Qed.

End step.

Lemma fine_del_one M s s' h tr f fr p frp rp' :
  ti M s h -> evs_ok af (tr ++ h) ->
  s_frames s !! f = Some fr -> s_frames s !! p = Some frp -> p <> f ->
  (forall g, f_rp <$> s_frames s' !! g = if decide (p = g) then Some rp' else if decide (f = g) then None else f_rp <$> s_frames s !! g) ->
  (forall e g, e ∈ tr -> g <> f -> ~ touches g e) ->
  (forall X L, M !! p = Some (f_rp frp, X, L) -> env h p X L ->
     exists X' L', nless af (rp', X', L') (f_rp frp, X, L) /\ env (tr ++ h) p X' L') ->
  fine M s s' (tr ++ h).
Proof.
  intros HT Hok Hf Hp Hne HF Ht HN. destruct (node_at M s h HT p frp Hp) as (X & L & HM & HE).
  destruct (HN X L HM HE) as (X' & L' & Hless & HE').
  destruct (node_at M s h HT f fr Hf) as (Xf & Lf & HMf & HEf).
  exists (<[p := (rp', X', L')]> (delete f M)). split.
  - split.
    + intros g. rewrite HF. case_decide; subst; [by rewrite lookup_insert|]. rewrite lookup_insert_ne by done.
      case_decide; subst; [by rewrite lookup_delete|]. rewrite lookup_delete_ne by done. apply HT.
    + intros g rp1 X1 L1. destruct (decide (g = p)) as [->|Hnp].
      * rewrite lookup_insert. intros E. by injection E as <- <- <-.
      * rewrite lookup_insert_ne by done. intros (Hnf & Hg)%lookup_delete_Some.
        apply env_evs; [done|intros e He; by eapply Ht|]. by eapply ti_env.
  - left. eapply t_trans; [apply t_step|apply t_step; by eapply gless_del].
    eapply gless_one; [|exact Hless]. by rewrite lookup_delete_ne.
Qed.

End env.
