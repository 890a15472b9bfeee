(** * The submission list: invariant. *)

From stdpp Require Import prelude gmap list.
From Coq Require Import Lia.
From Verif Require Import ListModel ListSpec.

Section proofs.
Context {V : Type}.
Implicit Types (s : lst V) (h : list (lev V)) (m : gmap nat (node V)) (ns : list nat).

Inductive chain m : option nat -> list nat -> Prop :=
| chain_nil : chain m None []
| chain_cons n nd ns : m !! n = Some nd -> chain m (n_next nd) ns -> chain m (Some n) (n :: ns).

Definition vals m ns : list V := omap (fun n => n_data <$> m !! n) ns.

Lemma chain_ext m m' x ns : (forall n, n ∈ ns -> m' !! n = m !! n) -> chain m x ns -> chain m' x ns.
Proof.
  intros Hm Hc. induction Hc as [|n nd ns Hn Hc IH]; [constructor|].
  econstructor; [rewrite Hm; [done|set_solver]|]. apply IH. intros k Hk. apply Hm. set_solver.
Qed.

Lemma vals_ext m m' ns : (forall n, n ∈ ns -> n_data <$> m' !! n = n_data <$> m !! n) -> vals m' ns = vals m ns.
Proof.
  intros Hm. induction ns as [|n ns IH]; [done|]. unfold vals in *; simpl. rewrite Hm by set_solver.
  destruct (n_data <$> m !! n); [f_equal|]; apply IH; set_solver.
Qed.

Lemma vals_app m ns ns' : vals m (ns ++ ns') = vals m ns ++ vals m ns'.
Proof. apply omap_app. Qed.

Lemma elem_of_rev (n : nat) ns : n ∈ rev ns <-> n ∈ ns.
Proof. rewrite !elem_of_list_In. symmetry. apply in_rev. Qed.
Lemma in_lists1 (n : nat) hs us fs : n ∈ rev us ++ fs -> n ∈ hs ++ us ++ fs.
Proof. rewrite !elem_of_app, elem_of_rev. tauto. Qed.
Lemma in_lists2 (n : nat) hs us fs : n ∈ rev hs -> n ∈ hs ++ us ++ fs.
Proof. rewrite !elem_of_app, elem_of_rev. tauto. Qed.

Definition own (p : ppc) : option nat :=
  match p with PLoad n | PSet n _ | PCas n _ => Some n | _ => None end.

Definition prod_ok s h (i : nat) : Prop :=
  match l_prod s i with
  | PIdle => pphase i h NotPushing
  | PLoad n => exists v, l_mem s !! n = Some (Node v None) /\ pphase i h (Pushing v)
  | PSet n _ => exists nd, l_mem s !! n = Some nd /\ pphase i h (Pushing (n_data nd))
  | PCas n st => exists v, l_mem s !! n = Some (Node v st) /\ pphase i h (Pushing v)
  | PRet => exists v, pphase i h (HasPushed v)
  end.

Definition cons_ok s us fs : Prop :=
  match l_cons s with
  | CIdle => us = [] /\ fs = []
  | CRev last first => chain (l_mem s) last us /\ chain (l_mem s) first fs
  | CEach root => us = [] /\ chain (l_mem s) root fs
  end.

Record linv s h : Prop := {
  li_prod : forall i, prod_ok s h i;
  li_own : forall i j n, own (l_prod s i) = Some n -> own (l_prod s j) = Some n -> i = j;
  li_lists : exists hs us fs,
    chain (l_mem s) (l_head s) hs /\ cons_ok s us fs /\
    NoDup (hs ++ us ++ fs) /\
    (forall i n, own (l_prod s i) = Some n -> n ∉ hs ++ us ++ fs) /\
    (forall n, n ∈ hs ++ us ++ fs -> is_Some (l_mem s !! n)) /\
    before_pop h = seen h ++ vals (l_mem s) (rev us ++ fs) /\
    pushed h = before_pop h ++ vals (l_mem s) (rev hs)
}.

Definition ev_i (e : lev V) : option nat :=
  match e with EPushCall i _ | EPushed i _ | EPushRet i => Some i | _ => None end.
Lemma pphase_other i e h p : ev_i e <> Some i -> pphase i h p -> pphase i (e :: h) p.
Proof. destruct e; simpl; intros; constructor; congruence || done. Qed.

Lemma own_live s h i n : prod_ok s h i -> own (l_prod s i) = Some n -> is_Some (l_mem s !! n).
Proof.
  unfold prod_ok. destruct (l_prod s i); simpl; try done; intros H [= <-].
  - destruct H as (v & -> & _). eauto.
  - destruct H as (v & -> & _). eauto.
  - destruct H as (v & -> & _). eauto.
Qed.

(** Producers other than [i] do not notice a step that leaves their nodes alone. *)
Lemma prod_ok_other s s' h e i :
  prod_ok s h i -> l_prod s' i = l_prod s i ->
  (forall n, own (l_prod s i) = Some n -> l_mem s' !! n = l_mem s !! n) ->
  match e with Some e => ev_i e <> Some i | None => True end ->
  prod_ok s' (match e with Some e => e :: h | None => h end) i.
Proof.
  unfold prod_ok. intros H E Hm He. rewrite E.
  destruct e as [e|].
  - destruct (l_prod s i) as [|n|n st|n st|]; simpl in *.
    + by apply pphase_other.
    + destruct H as (v & H1 & H2). exists v. rewrite Hm by done. split; [done|by apply pphase_other].
    + destruct H as (v & H1 & H2). exists v. rewrite Hm by done. split; [done|by apply pphase_other].
    + destruct H as (v & H1 & H2). exists v. rewrite Hm by done. split; [done|by apply pphase_other].
    + destruct H as (v & H2). exists v. by apply pphase_other.
  - destruct (l_prod s i) as [|n|n st|n st|]; simpl in *; try done.
    + destruct H as (v & H1 & H2). exists v. by rewrite Hm.
    + destruct H as (v & H1 & H2). exists v. by rewrite Hm.
    + destruct H as (v & H1 & H2). exists v. by rewrite Hm.
Qed.

Lemma prod_set_eq s i p : l_prod (set_prod i p s) i = p.
Proof. simpl. by rewrite decide_True. Qed.
Lemma prod_set_ne s i j p : j <> i -> l_prod (set_prod i p s) j = l_prod s j.
Proof. intros. simpl. by rewrite decide_False. Qed.

Lemma linv_init : linv linit [].
Proof.
  split; simpl.
  - intros i. constructor.
  - done.
  - exists [], [], []. split_and!; try done; try constructor.
    intros n Hn. by apply elem_of_nil in Hn.
Qed.

Lemma producer_ok i n v spur s h :
  linv s h -> match producer i n v spur s with
              | Next s' tr => linv s' (rev tr ++ h) | Undef => False | Blocked => True end.
Proof.
  intros [Hp Ho (hs & us & fs & Hh & Hc & Hnd & Hno & Hlive & Hb & Hpu)].
  pose proof (Hp i) as Hi. unfold producer. unfold prod_ok in Hi.
  assert (forall p, own p = None \/ own p = own (l_prod s i) ->
    forall i' j n, own (if decide (i' = i) then p else l_prod s i') = Some n ->
      own (if decide (j = i) then p else l_prod s j) = Some n -> i' = j) as Hown.
  { intros p Hpi i' j n'. repeat case_decide; subst; try done; intros E1 E2.
    - destruct Hpi as [E|E]; [congruence|]. eapply Ho; [|exact E2]. congruence.
    - destruct Hpi as [E|E]; [congruence|]. eapply Ho; [exact E1|]. congruence.
    - by eapply Ho. }
  destruct (l_prod s i) as [|n'|n' st|n' st|] eqn:Ei.
  - (* construct the node *)
    destruct (l_mem s !! n) eqn:En; [done|]. simpl.
    assert (forall n', is_Some (l_mem s !! n') -> <[n:=Node v None]> (l_mem s) !! n' = l_mem s !! n') as Hfr.
    { intros n' [nd Hn']. rewrite lookup_insert_ne; [done|]. intros <-. congruence. }
    assert (n ∉ hs ++ us ++ fs) as Hnn. { intros Hin. destruct (Hlive _ Hin). congruence. }
    split; simpl.
    + intros j. destruct (decide (j = i)) as [->|Hne].
      * unfold prod_ok. simpl. rewrite decide_True by done. exists v. rewrite lookup_insert. split; [done|by constructor].
      * refine (prod_ok_other s _ h (Some _) j (Hp j) _ _ _); simpl; [by rewrite decide_False| |congruence].
        intros n' Hn'. apply Hfr. by apply (own_live _ h j).
    + intros i' j n'. repeat case_decide; subst; simpl; try done; intros E1 E2.
      * injection E1 as ->. destruct (own_live _ _ _ _ (Hp j) E2). congruence.
      * injection E2 as ->. destruct (own_live _ _ _ _ (Hp i') E1). congruence.
      * by eapply Ho.
    + exists hs, us, fs. split_and!; try done.
      * eapply chain_ext; [|done]. intros n' Hn'. apply Hfr, Hlive. set_solver.
      * unfold cons_ok in *; simpl. destruct (l_cons s) as [|l f|r]; [done|..]; destruct Hc as [Hc1 Hc2];
          (split; [|eapply chain_ext; [|done]; intros n' Hn'; apply Hfr, Hlive; set_solver]); [|done].
        eapply chain_ext; [|done]; intros n' Hn'; apply Hfr, Hlive; set_solver.
      * intros j n'. case_decide; subst; simpl; [intros [= <-]; done|apply Hno].
      * intros n' Hn'. rewrite Hfr; by apply Hlive.
      * rewrite (vals_ext (l_mem s)); [done|]. intros n' Hn'. rewrite Hfr; [done|]. by apply Hlive, in_lists1.
      * rewrite (vals_ext (l_mem s)); [done|]. intros n' Hn'. rewrite Hfr; [done|]. by apply Hlive, in_lists2.
  - destruct Hi as (v' & Hn' & Hph). rewrite Hn'. simpl.
    split; simpl; [|by apply Hown; right|].
    + intros j. destruct (decide (j = i)) as [->|Hne].
      * unfold prod_ok. simpl. rewrite decide_True by done. by eexists.
      * refine (prod_ok_other s _ h None j (Hp j) _ _ _); simpl; [by rewrite decide_False|done|done].
    + exists hs, us, fs. split_and!; try done.
      intros j n2. case_decide; subst; simpl; [|apply Hno]. intros [= <-]. apply (Hno i). by rewrite Ei.
  - destruct Hi as (nd & Hn' & Hph). rewrite Hn'. simpl.
    assert (n' ∉ hs ++ us ++ fs) as Hnn. { apply (Hno i). by rewrite Ei. }
    split; simpl; [|by apply Hown; right|].
    + intros j. destruct (decide (j = i)) as [->|Hne].
      * unfold prod_ok. simpl. rewrite decide_True by done. rewrite lookup_insert. by eexists.
      * refine (prod_ok_other s _ h None j (Hp j) _ _ _); simpl; [by rewrite decide_False| |done].
        intros n2 Hn2. rewrite lookup_insert_ne; [done|]. intros <-. apply Hne. eapply Ho; [done|by rewrite Ei].
    + exists hs, us, fs. split_and!; try done.
      * eapply chain_ext; [|done]. intros n2 Hn2. rewrite lookup_insert_ne; [done|set_solver].
      * unfold cons_ok in *; simpl. destruct (l_cons s) as [|l f|r]; [done|..]; destruct Hc as [Hc1 Hc2];
          (split; [|eapply chain_ext; [|done]; intros n2 Hn2; rewrite lookup_insert_ne; [done|set_solver]]); [|done].
        eapply chain_ext; [|done]; intros n2 Hn2; rewrite lookup_insert_ne; [done|set_solver].
      * intros j n2. case_decide; subst; simpl; [|apply Hno]. intros [= <-]. done.
      * intros n2 Hn2. rewrite lookup_insert_is_Some'. right. by apply Hlive.
      * rewrite (vals_ext (l_mem s)); [done|]. intros n2 Hn2. rewrite lookup_insert_ne; [done|]. intros <-. by apply Hnn, in_lists1.
      * rewrite (vals_ext (l_mem s)); [done|]. intros n2 Hn2. rewrite lookup_insert_ne; [done|]. intros <-. by apply Hnn, in_lists2.
  - destruct Hi as (v' & Hn' & Hph). case_decide as Hcas.
    + destruct Hcas as [<- ->]. rewrite Hn'. simpl.
      split; simpl; [|by apply Hown; left|].
      * intros j. destruct (decide (j = i)) as [->|Hne].
        -- unfold prod_ok. simpl. rewrite decide_True by done. exists v'. by constructor.
        -- refine (prod_ok_other s _ h (Some _) j (Hp j) _ _ _); simpl; [by rewrite decide_False|done|congruence].
      * exists (n' :: hs), us, fs.
        assert (n' ∉ hs ++ us ++ fs) as Hnn. { apply (Hno i). by rewrite Ei. }
        split_and!; try done.
        -- by econstructor.
        -- simpl. by constructor.
        -- intros j n2. case_decide as Hji; [done|]. intros E. simpl. apply not_elem_of_cons. split; [|by eapply Hno].
           intros ->. apply Hji. eapply Ho; [done|by rewrite Ei].
        -- intros n2 Hn2. simpl in Hn2. apply elem_of_cons in Hn2 as [->|Hn2]; [eauto|by apply Hlive].
        -- simpl. rewrite vals_app, Hpu. unfold vals at 3. simpl. rewrite Hn'. simpl. by rewrite (assoc_L (++)).
    + simpl. split; simpl; [|by apply Hown; right|].
      * intros j. destruct (decide (j = i)) as [->|Hne].
        -- unfold prod_ok. simpl. rewrite decide_True by done. by eexists.
        -- refine (prod_ok_other s _ h None j (Hp j) _ _ _); simpl; [by rewrite decide_False|done|done].
      * exists hs, us, fs. split_and!; try done.
        intros j n2. case_decide; subst; simpl; [|apply Hno]. intros [= <-]. apply (Hno i). by rewrite Ei.
  - destruct Hi as (v' & Hph). simpl. split; simpl; [|by apply Hown; left|].
    + intros j. destruct (decide (j = i)) as [->|Hne].
      * unfold prod_ok. simpl. rewrite decide_True by done. by econstructor.
      * refine (prod_ok_other s _ h (Some _) j (Hp j) _ _ _); simpl; [by rewrite decide_False|done|congruence].
    + exists hs, us, fs. split_and!; try done.
      intros j n2. case_decide; subst; simpl; [done|apply Hno].
Qed.

Lemma consumer_ok s h :
  linv s h -> match consumer s with Next s' tr => linv s' (rev tr ++ h) | Undef => False | Blocked => True end.
Proof.
  intros [Hp Ho (hs & us & fs & Hh & Hc & Hnd & Hno & Hlive & Hb & Hpu)].
  unfold consumer, cons_ok in *.
  destruct (l_cons s) as [|[tmp|] first|[root|]] eqn:Ec.
  - destruct Hc as [-> ->]. simpl in *. rewrite app_nil_r in *. split; simpl.
    + intros j. refine (prod_ok_other s _ h (Some _) j (Hp j) _ _ _); done.
    + done.
    + exists [], hs, []. simpl. rewrite !app_nil_r in *. split_and!; try done; try constructor.
      * done.
      * constructor.
      * by rewrite Hpu, Hb.
  - destruct Hc as [Hc1 Hc2]. inversion Hc1 as [|? nd us' Htmp Hc1']; subst. rewrite Htmp. simpl.
    assert (tmp ∉ hs /\ tmp ∉ us' /\ tmp ∉ fs) as (Ht1 & Ht2 & Ht3).
    { apply NoDup_app in Hnd as (H1 & H2 & H3). simpl in H3. apply list.NoDup_cons in H3 as [H3 H4].
      rewrite not_elem_of_app in H3. split_and!; [|tauto..]. intros Hin. apply (H2 _ Hin). set_solver. }
    assert (forall n', n_data <$> (<[tmp:=Node (n_data nd) first]> (l_mem s)) !! n' = n_data <$> l_mem s !! n') as Hdata.
    { intros n'. destruct (decide (n' = tmp)) as [->|]; [by rewrite lookup_insert, Htmp|by rewrite lookup_insert_ne]. }
    split; simpl.
    + intros j. refine (prod_ok_other s _ h None j (Hp j) _ _ _); simpl; [done| |done].
      intros n' Hn'. rewrite lookup_insert_ne; [done|]. intros <-. apply (Hno _ _ Hn'). set_solver.
    + done.
    + exists hs, us', (tmp :: fs). split_and!.
      * eapply chain_ext; [|done]. intros n' Hn'. rewrite lookup_insert_ne; [done|set_solver].
      * unfold cons_ok; simpl. split.
        -- eapply chain_ext; [|done]. intros n' Hn'. rewrite lookup_insert_ne; [done|set_solver].
        -- econstructor; [by rewrite lookup_insert|]. simpl.
           eapply chain_ext; [|done]. intros n' Hn'. rewrite lookup_insert_ne; [done|set_solver].
      * simpl in Hnd. by rewrite <- Permutation_middle.
      * intros i n' Hn'. specialize (Hno i n' Hn'). set_solver.
      * intros n' Hn'. rewrite lookup_insert_is_Some'. right. apply Hlive. set_solver.
      * rewrite Hb. f_equal. rewrite (vals_ext (l_mem s) (<[tmp:=Node (n_data nd) first]> (l_mem s))) by done. simpl. by rewrite <- (assoc_L (++)).
      * rewrite (vals_ext (l_mem s) (<[tmp:=Node (n_data nd) first]> (l_mem s))) by done. done.
  - destruct Hc as [Hc1 Hc2]. inversion Hc1; subst. simpl. split; simpl; [|done|].
    + intros j. refine (prod_ok_other s _ h None j (Hp j) _ _ _); done.
    + exists hs, [], fs. by split_and!.
  - destruct Hc as [-> Hc]. inversion Hc as [|? nd fs' Hroot Hc']; subst. rewrite Hroot. simpl in *.
    assert (root ∉ hs /\ root ∉ fs') as (Ht1 & Ht3).
    { apply NoDup_app in Hnd as (H1 & H2 & H3). apply list.NoDup_cons in H3 as [H3 H4].
      split_and!; [|done]. intros Hin. apply (H2 _ Hin). set_solver. }
    split; simpl; [|done|].
    + intros j. refine (prod_ok_other s _ h (Some _) j (Hp j) _ _ _); simpl; [done| |done].
      intros n' Hn'. rewrite lookup_delete_ne; [done|]. intros <-. apply (Hno _ _ Hn'). set_solver.
    + exists hs, [], fs'. simpl. split_and!.
      * eapply chain_ext; [|done]. intros n' Hn'. rewrite lookup_delete_ne; [done|set_solver].
      * unfold cons_ok; simpl. split; [done|].
        eapply chain_ext; [|done]. intros n' Hn'. rewrite lookup_delete_ne; [done|set_solver].
      * apply NoDup_app in Hnd as (H1 & H2 & H3). apply list.NoDup_cons in H3 as [H3 H4].
        apply NoDup_app. split_and!; [done|set_solver|done].
      * intros i n' Hn'. specialize (Hno i n' Hn'). set_solver.
      * intros n' Hn'. rewrite lookup_delete_ne; [apply Hlive; set_solver|]. intros <-. set_solver.
      * rewrite Hb. unfold vals at 1. simpl. rewrite Hroot. simpl. rewrite <- (assoc_L (++)). simpl. do 2 f_equal.
        symmetry. apply vals_ext. intros n' Hn'. rewrite lookup_delete_ne; [done|set_solver].
      * rewrite Hpu. f_equal. symmetry. apply vals_ext. intros n' Hn'. rewrite lookup_delete_ne; [done|]. intros <-. by rewrite elem_of_rev in Hn'.
  - destruct Hc as [-> Hc]. inversion Hc; subst. simpl in *. split; simpl; [|done|].
    + intros j. refine (prod_ok_other s _ h (Some _) j (Hp j) _ _ _); done.
    + exists hs, [], []. by split_and!.
Qed.

Lemma lstep_ok l s h :
  linv s h -> match lstep_of l s with Next s' tr => linv s' (rev tr ++ h) | Undef => False | Blocked => True end.
Proof. destruct l; [apply producer_ok|apply consumer_ok]. Qed.

Theorem lreach_inv s h : lreach s h -> linv s h.
Proof.
  induction 1 as [|s h l s' tr Hr IH Hs]; [apply linv_init|].
  pose proof (lstep_ok l s h IH) as H. by rewrite Hs in H.
Qed.
End proofs.
