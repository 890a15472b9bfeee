(** * The deque: invariant. *)

From stdpp Require Import prelude gmap list.
From Coq Require Import ZArith Lia.
From Verif Require Import DequeModel DequeSpec.
Local Open Scope Z_scope.

Section proofs.
Context {V : Type}.
Implicit Types (r : ring V) (s : deque V) (h : list (dev V)) (q : list V).

(** ** Ring buffers *)

Definition ring_ok r := exists k : nat, r_cap r = 2 ^ Z.of_nat k.

Lemma ring_cap_pos r : ring_ok r -> 0 < r_cap r.
Proof. intros [k ->]. apply Z.pow_pos_nonneg; lia. Qed.

Lemma slot_mod r i : ring_ok r -> slot r i = i mod r_cap r.
Proof.
  intros [k E]. unfold slot. rewrite E, <- Z.land_ones by lia.
  rewrite Z.ones_equiv, <- Z.sub_1_r. done.
Qed.

Lemma slot_inj r i j : ring_ok r -> slot r i = slot r j -> Z.abs (i - j) < r_cap r -> i = j.
Proof.
  intros Hok. rewrite !slot_mod by done. pose proof (ring_cap_pos r Hok) as Hp.
  intros E Hd.
  pose proof (Z.div_mod i (r_cap r) ltac:(lia)). pose proof (Z.div_mod j (r_cap r) ltac:(lia)).
  assert (i - j = r_cap r * (i / r_cap r - j / r_cap r)) as E2 by lia.
  assert (i / r_cap r - j / r_cap r = 0) by nia. lia.
Qed.

Lemma ring_ok_store r i v : ring_ok r -> ring_ok (r_store r i v).
Proof. done. Qed.

Lemma load_store_eq r i v : r_load (r_store r i v) i = Some v.
Proof. unfold r_load, r_store, slot; simpl. by rewrite lookup_insert. Qed.

Lemma load_store_ne r i j v : ring_ok r -> i <> j -> Z.abs (i - j) < r_cap r ->
  r_load (r_store r i v) j = r_load r j.
Proof.
  intros Hok Hne Hd. unfold r_load, r_store, slot; simpl. rewrite lookup_insert_ne; [done|].
  intros E. apply Hne. by eapply slot_inj.
Qed.

Lemma copy_spec (k : nat) (from : ring V) n : forall i to_ lo,
  r_cap to_ = 2 ^ Z.of_nat k -> lo <= i -> i + Z.of_nat n - lo <= 2 ^ Z.of_nat k ->
  (forall j, lo <= j < i -> r_load to_ j = r_load from j) ->
  (forall j, i <= j < i + Z.of_nat n -> r_load to_ j = None) ->
  r_cap (copy n i from to_) = r_cap to_ /\
  forall j, lo <= j < i + Z.of_nat n -> r_load (copy n i from to_) j = r_load from j.
Proof.
  induction n as [|n IH]; intros i to_ lo Hc Hlo Hn Hdone Htodo; simpl.
  - split; [done|]. intros j Hj. apply Hdone. lia.
  - assert (ring_ok to_) as Hok by by exists k.
    set (to' := match r_load from i with Some v => r_store to_ i v | None => to_ end).
    assert (r_cap to' = r_cap to_) as Hc' by (unfold to'; by destruct (r_load from i)).
    assert (forall j, j <> i -> lo <= j < i + Z.of_nat (S n) -> r_load to' j = r_load to_ j) as Ho.
    { intros j Hj1 Hj2. unfold to'. destruct (r_load from i); [|done].
      apply load_store_ne; [done|lia|rewrite Hc; lia]. }
    destruct (IH (i + 1) to' lo) as [H1 H2].
    + by rewrite Hc'.
    + lia.
    + lia.
    + intros j Hj. destruct (decide (j = i)) as [->|Hne].
      * unfold to'. destruct (r_load from i) eqn:E; [by rewrite load_store_eq|]. apply Htodo. lia.
      * rewrite Ho by lia. apply Hdone. lia.
    + intros j Hj. rewrite Ho by lia. apply Htodo. lia.
    + split; [congruence|]. intros j Hj. apply H2. lia.
Qed.

Lemma resize_spec r b t : ring_ok r -> t <= b -> b - t <= r_cap r ->
  ring_ok (resize r b t) /\ r_cap (resize r b t) = 2 * r_cap r /\
  forall j, t <= j < b -> r_load (resize r b t) j = r_load r j.
Proof.
  intros [k E] Ht Hb. unfold resize.
  assert (2 * r_cap r = 2 ^ Z.of_nat (S k)) as E2.
  { rewrite E, Nat2Z.inj_succ, Z.pow_succ_r by lia. done. }
  destruct (copy_spec (S k) r (Z.to_nat (b - t)) t (Ring (2 * r_cap r) ∅) t) as [H1 H2].
  - done.
  - lia.
  - rewrite <- E2. pose proof (ring_cap_pos r (ex_intro _ k E)). lia.
  - intros; lia.
  - intros. unfold r_load; simpl. apply lookup_empty.
  - simpl in H1. split_and!.
    + exists (S k). by rewrite H1.
    + done.
    + intros j Hj. apply H2. lia.
Qed.

(** ** The invariant *)

(** One past the newest item: a pop has not happened before its linearization
    point. *)
Definition hi s : Z :=
  match d_own s with
  | OPopTop b | OPopCas b _ | OPopRestore b _ => b + 1
  | _ => d_bot s
  end.

Definition own_ok s r : Prop :=
  match d_own s with
  | OIdle | OPushRet _ | OPopNone => True
  | OPushTop v b => b = d_bot s
  | OPushBuf v b t => b = d_bot s /\ 0 <= t <= d_top s /\ b - t <= r_cap r
  | OPushPub v b t r' =>
    b = d_bot s /\ 0 <= t <= d_top s /\ ring_ok r' /\ r_cap r' = 2 * r_cap r /\ b - t + 1 <= r_cap r' /\
    (forall j, t <= j < b -> r_load r' j = r_load r j)
  | OPushStore v b t => b = d_bot s /\ 0 <= t <= d_top s /\ b - t + 1 <= r_cap r
  | OPushBot v b => b = d_bot s /\ r_load r b = Some v /\ b - d_top s + 1 <= r_cap r
  | OPopStore b => b = d_bot s - 1
  | OPopTop b => b = d_bot s
  | OPopCas b t => b = d_bot s /\ t = b /\ t <= d_top s
  | OPopRestore b ok => b = d_bot s /\ d_top s = b + 1 /\ (ok = true -> 0 <= b /\ exists v, r_load r b = Some v)
  | OPopRet b => 0 <= b /\ exists v, r_load r b = Some v
  end.

(** The phase the owner is in, given its program counter. *)
Definition own_phase s r : phase V :=
  match d_own s with
  | OIdle => Idle
  | OPushTop v _ | OPushBuf v _ _ | OPushPub v _ _ _ | OPushStore v _ _ | OPushBot v _ => Called (DPush v)
  | OPushRet _ => Idle
  | OPopStore _ | OPopTop _ | OPopCas _ _ => Called DPop
  | OPopRestore b true | OPopRet b =>
    match r_load r b with Some v => Done DPop (RSome v) | None => Idle end
  | OPopRestore _ false | OPopNone => Done DPop REmpty
  end.
Definition own_tr s r h : Prop :=
  match d_own s with
  | OPushRet x => exists v, in_phase None h (Done (DPush v) x)
  | _ => in_phase None h (own_phase s r)
  end.

Definition thf_ok s r h (i : nat) : Prop :=
  match d_thf s i with
  | TIdle | TTop => True
  | TRet _ => True
  | TBot t => 0 <= t <= d_top s /\ (t < d_top s -> took_since (Some i) h)
  | TBuf t => 0 <= t <= d_top s /\ (t < d_top s -> took_since (Some i) h) /\ (d_top s = t -> t < hi s)
  | TSlot t b =>
    0 <= t <= d_top s /\ (t < d_top s -> took_since (Some i) h) /\
    exists r', d_bufs s !! b = Some r' /\ (d_top s = t -> t < hi s /\ r_load r' t = r_load r t)
  | TCas t x =>
    0 <= t <= d_top s /\ (t < d_top s -> took_since (Some i) h) /\
    (d_top s = t -> t < hi s /\ x = r_load r t)
  end.

Definition thf_phase (p : tpc V) : phase V :=
  match p with
  | TIdle => Idle
  | TRet x => Done DSteal x
  | _ => Called DSteal
  end.

Record inv (k : nat) s h : Prop := {
  i_ring : exists r, d_bufs s !! d_cur s = Some r /\
    ring_ok r /\ r_cap r = 2 ^ Z.of_nat (k + d_cur s) /\
    hi s - d_top s <= r_cap r /\
    own_ok s r /\ own_tr s r h /\
    (forall i, thf_ok s r h i) /\
    exists q, contents h q /\ Z.of_nat (length q) = hi s - d_top s /\
      forall (j : nat) v, q !! j = Some v -> r_load r (d_top s + Z.of_nat j) = Some v;
  i_top : 0 <= d_top s <= hi s;
  i_cur : length (d_bufs s) = S (d_cur s);
  i_thf : forall i, in_phase (Some i) h (thf_phase (d_thf s i))
}.

(** ** Preservation *)

Lemma took_since_mono w e h : (forall op, ECall w op ∉ e) -> took_since w h -> took_since w (e ++ h).
Proof.
  intros He (h1 & h2 & w' & op & v & -> & Hw & Hn).
  exists (e ++ h1), h2, w', op, v. split_and!; [by rewrite <- app_assoc|done|].
  intros op'. rewrite <- app_assoc. rewrite not_elem_of_app. split; [apply He|apply Hn].
Qed.

Lemma took_since_now w w' op v h : w' <> w -> took_since w (ELin w' op (RSome v) :: h).
Proof.
  intros Hw. exists [], h, w', op, v. split_and!; [done|done|].
  intros op'. simpl. by rewrite elem_of_list_singleton.
Qed.

Lemma thf_ok_mono s r h s' r' e i :
  thf_ok s r h i -> d_thf s' i = d_thf s i ->
  d_top s <= d_top s' -> (forall op, ECall (Some i) op ∉ e) ->
  (d_top s < d_top s' -> took_since (Some i) (e ++ h)) ->
  (d_top s' = d_top s -> d_top s < hi s ->
     d_top s < hi s' /\ r_load r' (d_top s) = r_load r (d_top s) /\
     forall b rb rb', d_bufs s !! b = Some rb -> d_bufs s' !! b = Some rb' ->
       r_load rb (d_top s) = r_load r (d_top s) -> r_load rb' (d_top s) = r_load r' (d_top s)) ->
  (forall b rb, d_bufs s !! b = Some rb -> is_Some (d_bufs s' !! b)) ->
  thf_ok s' r' (e ++ h) i.
Proof.
  unfold thf_ok. intros H Et Ht He Htook Hsame Hbuf. rewrite Et.
  destruct (d_thf s i) as [| |t|t|t b|t x|x]; try done.
  - destruct H as [H1 H2]. split; [lia|]. intros Hlt.
    destruct (decide (d_top s < d_top s')); [by apply Htook|].
    apply took_since_mono; [done|]. apply H2. lia.
  - destruct H as (H1 & H2 & H3). split_and!; [lia|lia| |].
    + intros Hlt. destruct (decide (d_top s < d_top s')); [by apply Htook|].
      apply took_since_mono; [done|]. apply H2. lia.
    + intros E. assert (t = d_top s) as -> by lia. specialize (H3 eq_refl).
      by apply Hsame.
  - destruct H as (H1 & H2 & rb & Hrb & H3). split_and!; [lia|lia| |].
    + intros Hlt. destruct (decide (d_top s < d_top s')); [by apply Htook|].
      apply took_since_mono; [done|]. apply H2. lia.
    + destruct (Hbuf _ _ Hrb) as [rb' Hrb']. exists rb'. split; [done|].
      intros E. assert (t = d_top s) as -> by lia. destruct (H3 eq_refl) as [H4 H5].
      destruct (Hsame E H4) as (H6 & H7 & H8). split; [done|]. by eapply H8.
  - destruct H as (H1 & H2 & H3). split_and!; [lia|lia| |].
    + intros Hlt. destruct (decide (d_top s < d_top s')); [by apply Htook|].
      apply took_since_mono; [done|]. apply H2. lia.
    + intros E. assert (t = d_top s) as -> by lia. destruct (H3 eq_refl) as [H4 H5].
      destruct (Hsame E H4) as (H6 & H7 & H8). split; [done|]. by rewrite H7.
Qed.

(** The step changes neither the buffers nor m_top. *)
Lemma thf_ok_same s r h s' e i :
  thf_ok s r h i -> d_thf s' i = d_thf s i ->
  d_top s' = d_top s -> d_bufs s' = d_bufs s -> (d_top s < hi s -> d_top s < hi s') ->
  (forall op, ECall (Some i) op ∉ e) ->
  thf_ok s' r (e ++ h) i.
Proof.
  intros H Et Ht Hb Hhi He. eapply thf_ok_mono; [done|done|lia|done|lia| |].
  - intros _ Hlt. split_and!; [by apply Hhi|done|]. rewrite Hb. intros b rb rb' -> [= ->]. done.
  - rewrite Hb. intros ?? ->. eauto.
Qed.

Lemma in_phase_app_other w h p e :
  in_phase w h p ->
  Forall (fun x => match x with ECall w' _ | ELin w' _ _ | ERet w' _ => w' <> w end) e ->
  in_phase w (e ++ h) p.
Proof.
  intros Hp He. induction He as [|x e Hx He IH]; [done|]. simpl.
  destruct x; by constructor.
Qed.

Ltac ph_other :=
  intros; first [by eauto | eapply (in_phase_app_other _ _ _ [_]); [by eauto|by apply Forall_singleton]].

Lemma inv_init k : inv k (init (2 ^ Z.of_nat k)) [].
Proof.
  split; simpl.
  - exists (Ring (2 ^ Z.of_nat k) ∅). unfold own_ok, own_tr, thf_ok, hi; simpl.
    split_and!; try done.
    + by exists k.
    + by rewrite Nat.add_0_r.
    + pose proof (Z.pow_pos_nonneg 2 (Z.of_nat k)). lia.
    + constructor.
    + exists []. split_and!; [constructor|done|done].
  - unfold hi; simpl. lia.
  - done.
  - intros. constructor.
Qed.

(** The step of the owner. *)
Lemma owner_ok k s h op fail :
  inv k s h -> exists s' tr, owner op fail s = Next s' tr /\ inv k s' (rev tr ++ h).
Proof.
  intros [(r & Hr & Hok & Hcap & Hsz & Hown & Htr & Hthf & q & Hq & Hlen & Hval) Htop Hcur Hph].
  pose proof (ring_cap_pos r Hok) as Hpos.
  unfold owner, own_ok, own_tr, own_phase, with_cur in *. rewrite Hr.
  assert (forall j, d_top s <= j < hi s -> exists v, q !! Z.to_nat (j - d_top s) = Some v /\ r_load r j = Some v) as Hin.
  { intros j Hj. destruct (lookup_lt_is_Some_2 q (Z.to_nat (j - d_top s))) as [v Hv]; [lia|].
    exists v. split; [done|]. rewrite <- (Hval _ _ Hv). f_equal. lia. }
  destruct (d_own s) as [|v b|v b t|v b t rn|v b t|v b|x|b|b|b t|b ok|b|] eqn:Eo;
    unfold hi in *; rewrite ?Eo in *.
  - (* idle *)
    destruct op as [v|].
    + eexists _, _; split; [reflexivity|].
      split; unfold hi; simpl; [|lia|done|ph_other].
      exists r; split_and!; try done.
      * unfold own_tr; simpl. by constructor.
      * intros i; eapply (thf_ok_same s r h _ [_]);
          [done|done|done|done|unfold hi; rewrite Eo; simpl; lia|set_solver].
      * exists q; split_and!; [by constructor|lia|done].
    + eexists _, _; split; [reflexivity|].
      split; unfold hi; simpl; [|lia|done|ph_other].
      exists r; split_and!; try done; try lia.
      * unfold own_tr; simpl. by constructor.
      * intros i; eapply (thf_ok_same s r h _ [_]);
          [done|done|done|done|unfold hi; rewrite Eo; simpl; lia|set_solver].
      * exists q; split_and!; [by constructor|lia|done].
  - (* push: load top *)
    eexists _, _; split; [reflexivity|].
    split; unfold hi; simpl; [|lia|done|ph_other].
    exists r; split_and!; try done.
    + unfold own_ok; simpl. lia.
    + intros i; eapply (thf_ok_same s r h _ []);
        [done|done|done|done|unfold hi; rewrite Eo; simpl; done|set_solver].
    + exists q; split_and!; [done|lia|done].
  - (* push: capacity *)
    destruct Hown as (-> & Ht & Hbt).
    case_decide as Hfull.
    + destruct fail.
      * eexists _, _; split; [reflexivity|].
        split; unfold hi; simpl; [|lia|done|ph_other].
        exists r; split_and!; try done.
        -- exists v. by constructor.
        -- intros i; eapply (thf_ok_same s r h _ [_]);
             [done|done|done|done|unfold hi; rewrite Eo; simpl; done|set_solver].
        -- exists q; split_and!; [by econstructor; [|constructor]|lia|done].
      * rewrite decide_True by lia.
        destruct (resize_spec r (d_bot s) t) as (Hr1 & Hr2 & Hr3); [done|lia|done|].
        eexists _, _; split; [reflexivity|].
        split; unfold hi; simpl; [|lia|done|ph_other].
        exists r; split_and!; try done.
        -- unfold own_ok; simpl. split_and!; try done; lia.
        -- intros i; eapply (thf_ok_same s r h _ []);
             [done|done|done|done|unfold hi; rewrite Eo; simpl; done|set_solver].
        -- exists q; split_and!; [done|lia|done].
    + eexists _, _; split; [reflexivity|].
      split; unfold hi; simpl; [|lia|done|ph_other].
      exists r; split_and!; try done.
      * unfold own_ok; simpl. lia.
      * intros i; eapply (thf_ok_same s r h _ []);
          [done|done|done|done|unfold hi; rewrite Eo; simpl; done|set_solver].
      * exists q; split_and!; [done|lia|done].
  - (* push: publish *)
    destruct Hown as (-> & Ht & Hr1 & Hr2 & Hbt & Hr3).
    eexists _, _; split; [reflexivity|].
    split; unfold hi; simpl; [|lia|rewrite app_length; simpl; lia|ph_other].
    exists rn; split_and!; try done.
    + rewrite lookup_app_r by lia. by rewrite Nat.sub_diag.
    + rewrite Hr2, Hcap, Hcur, <- Z.pow_succ_r, <- Nat2Z.inj_succ by lia. do 2 f_equal. lia.
    + lia.
    + intros i; eapply (thf_ok_mono s r h _ rn []);
        [done|done|done|set_solver|simpl; lia| |].
      * unfold hi; rewrite Eo; simpl. intros _ Hlt. split_and!; [done|apply Hr3; lia|].
        intros b rb rb' Hb Hb' E. rewrite (lookup_app_l_Some _ _ _ _ Hb) in Hb'.
        injection Hb' as <-. rewrite E. symmetry. apply Hr3; lia.
      * simpl. intros b rb Hb. rewrite (lookup_app_l_Some _ _ _ _ Hb). eauto.
    + exists q; split_and!; [done|lia|]. intros j x Hj. rewrite Hr3; [by apply Hval|].
      apply lookup_lt_Some in Hj. lia.
  - (* push: store *)
    destruct Hown as (-> & Ht & Hbt). rewrite decide_True by lia.
    eexists _, _; split; [reflexivity|].
    split; unfold hi; simpl; [|lia|by rewrite insert_length|ph_other].
    exists (r_store r (d_bot s) v).
    assert (d_cur s < length (d_bufs s))%nat as Hlt by lia.
    split_and!; try done.
    + by rewrite list_lookup_insert.
    + unfold own_ok; simpl. split_and!; [done|apply load_store_eq|lia].
    + intros i; eapply (thf_ok_mono s r h _ _ []);
        [done|done|done|set_solver|simpl; lia| |].
      * unfold hi; rewrite Eo; simpl. intros _ Hlt2.
        assert (r_load (r_store r (d_bot s) v) (d_top s) = r_load r (d_top s)) as E1.
        { apply load_store_ne; [done|lia|lia]. }
        split_and!; [done|done|].
        intros b rb rb' Hb Hb' E. destruct (decide (b = d_cur s)) as [->|Hne].
        -- rewrite list_lookup_insert in Hb' by done. by injection Hb' as <-.
        -- rewrite list_lookup_insert_ne in Hb' by done. rewrite Hb in Hb'. injection Hb' as <-. congruence.
      * simpl. intros b rb Hb. apply lookup_lt_is_Some. rewrite insert_length. by eapply lookup_lt_Some.
    + exists q; split_and!; [done|lia|]. intros j x Hj. rewrite load_store_ne; [by apply Hval|done|..];
      apply lookup_lt_Some in Hj; lia.
  - (* push: bottom *)
    destruct Hown as (-> & Hv & Hbt).
    eexists _, _; split; [reflexivity|].
    split; unfold hi; simpl; [|lia|done|ph_other].
    exists r; split_and!; try done.
    + lia.
    + exists v. by constructor.
    + intros i; eapply (thf_ok_same s r h _ [_]);
        [done|done|done|done|unfold hi; rewrite Eo; simpl; lia|set_solver].
    + exists (q ++ [v]); split_and!; [by econstructor; [|constructor]|rewrite app_length; simpl; lia|].
      intros j x Hj. apply lookup_app_Some in Hj as [Hj|[Hj1 Hj2]]; [by apply Hval|].
      apply list_lookup_singleton_Some in Hj2 as [Hj2 ->]. rewrite <- Hv. f_equal. lia.
  - (* push: return *)
    destruct Htr as [v Htr].
    eexists _, _; split; [reflexivity|].
    split; unfold hi; simpl; [|lia|done|ph_other].
    exists r; split_and!; try done.
    + unfold own_tr; simpl. by econstructor.
    + intros i; eapply (thf_ok_same s r h _ [_]);
        [done|done|done|done|unfold hi; rewrite Eo; simpl; lia|set_solver].
    + exists q; split_and!; [by constructor|lia|done].
  - (* pop: bottom *)
    subst b. eexists _, _; split; [reflexivity|].
    split; unfold hi; simpl; [|lia|done|ph_other].
    exists r; split_and!; try done.
    + lia.
    + intros i; eapply (thf_ok_same s r h _ []);
        [done|done|done|done|unfold hi; rewrite Eo; simpl; lia|set_solver].
    + exists q; split_and!; [done|lia|done].
  - (* pop: top *)
    subst b. case_decide as Hle; [case_decide as Heq|].
    + eexists _, _; split; [reflexivity|].
      split; unfold hi; simpl; [|lia|done|ph_other].
      exists r; split_and!; try done.
      * intros i; eapply (thf_ok_same s r h _ []);
          [done|done|done|done|unfold hi; rewrite Eo; simpl; lia|set_solver].
      * exists q; split_and!; [done|lia|done].
    + destruct (Hin (d_bot s)) as (v & Hqv & Hv); [lia|]. rewrite Hv.
      eexists _, _; split; [reflexivity|].
      split; unfold hi; simpl; [|lia|done|ph_other].
      exists r; split_and!; try done.
      * lia.
      * unfold own_ok; simpl. split; [lia|eauto].
      * unfold own_tr, own_phase; simpl. rewrite Hv. by constructor.
      * intros i; eapply (thf_ok_same s r h _ [_]);
          [done|done|done|done|unfold hi; rewrite Eo; simpl; lia|set_solver].
      * destruct q as [|y q' _] using rev_ind; [done|].
        rewrite app_length in Hlen; simpl in Hlen.
        rewrite lookup_app_r in Hqv by lia.
        replace (Z.to_nat (d_bot s - d_top s) - length q')%nat with O in Hqv by lia.
        simpl in Hqv. injection Hqv as ->.
        exists q'; split_and!; [by econstructor; [|constructor]|lia|].
        intros j x Hj. apply Hval. by apply lookup_app_l_Some.
    + eexists _, _; split; [reflexivity|].
      split; unfold hi; simpl; [|lia|done|ph_other].
      destruct q; [|simpl in Hlen; lia].
      exists r; split_and!; try done.
      * unfold own_ok; simpl. split_and!; [done|lia|done].
      * unfold own_tr, own_phase; simpl. by constructor.
      * intros i; eapply (thf_ok_same s r h _ [_]);
          [done|done|done|done|unfold hi; rewrite Eo; simpl; lia|set_solver].
      * exists []; split_and!; [by econstructor; [|constructor]|done|done].
  - (* pop: cas *)
    destruct Hown as (-> & -> & Ht). case_decide as Heq.
    + destruct (Hin (d_bot s)) as (v & Hqv & Hv); [lia|]. rewrite Hv.
      eexists _, _; split; [reflexivity|].
      split; unfold hi; simpl; [|lia|done|ph_other].
      exists r; split_and!; try done.
      * lia.
      * unfold own_ok; simpl. split_and!; [done|lia|]. intros _. split; [lia|eauto].
      * unfold own_tr, own_phase; simpl. rewrite Hv. by constructor.
      * intros i; eapply (thf_ok_mono s r h _ r [_]);
          [done|done|simpl; lia|set_solver| |simpl; lia|].
        -- intros _. by apply took_since_now.
        -- simpl. eauto.
      * destruct q as [|y [|y2 q]]; simpl in Hlen; [lia| |lia].
        replace (Z.to_nat (d_bot s - d_top s))%nat with O in Hqv by lia. simpl in Hqv. injection Hqv as ->.
        exists []; split_and!; [|simpl; lia|done].
        econstructor; [done|]. apply (seq_pop v []).
    + eexists _, _; split; [reflexivity|].
      split; unfold hi; simpl; [|lia|done|ph_other].
      destruct q; [|simpl in Hlen; lia].
      exists r; split_and!; try done.
      * unfold own_ok; simpl. split_and!; [done|lia|done].
      * unfold own_tr, own_phase; simpl. by constructor.
      * intros i; eapply (thf_ok_same s r h _ [_]);
          [done|done|done|done|unfold hi; rewrite Eo; simpl; lia|set_solver].
      * exists []; split_and!; [by econstructor; [|constructor]|done|done].
  - (* pop: restore bottom *)
    destruct Hown as (-> & Ht & Hv).
    eexists _, _; split; [reflexivity|].
    split; unfold hi; simpl; [|destruct ok; simpl; lia|done|ph_other].
    exists r; split_and!; try done.
    + destruct ok; simpl; lia.
    + unfold own_ok; simpl. destruct ok; [|done]. by apply Hv.
    + unfold own_tr, own_phase; simpl. by destruct ok.
    + intros i; eapply (thf_ok_same s r h _ []);
        [done|done|done|done|unfold hi; rewrite Eo; destruct ok; simpl; lia|set_solver].
    + exists q; split_and!; [done|destruct ok; simpl; lia|done].
  - (* pop: return *)
    destruct Hown as (Hb & v & Hv). rewrite Hv in *. rewrite decide_True by done.
    eexists _, _; split; [reflexivity|].
    split; unfold hi; simpl; [|lia|done|ph_other].
    exists r; split_and!; try done.
    + unfold own_tr, own_phase; simpl. by econstructor.
    + intros i; eapply (thf_ok_same s r h _ [_]);
        [done|done|done|done|unfold hi; rewrite Eo; simpl; lia|set_solver].
    + exists q; split_and!; [by constructor|lia|done].
  - (* pop: return empty *)
    eexists _, _; split; [reflexivity|].
    split; unfold hi; simpl; [|lia|done|ph_other].
    exists r; split_and!; try done.
    + unfold own_tr, own_phase; simpl. by econstructor.
    + intros i; eapply (thf_ok_same s r h _ [_]);
        [done|done|done|done|unfold hi; rewrite Eo; simpl; lia|set_solver].
    + exists q; split_and!; [by constructor|lia|done].
Qed.

Lemma thf_set_eq s i p : d_thf (set_thf i p s) i = p.
Proof. simpl. by rewrite decide_True. Qed.
Lemma thf_set_ne s i j p : j <> i -> d_thf (set_thf i p s) j = d_thf s j.
Proof. intros. simpl. by rewrite decide_False. Qed.

(** A thief's step that changes nothing but its program counter. *)
Lemma thief_local k s h r q i p e :
  d_bufs s !! d_cur s = Some r -> ring_ok r -> r_cap r = 2 ^ Z.of_nat (k + d_cur s) ->
  hi s - d_top s <= r_cap r ->
  own_ok s r -> own_tr s r h -> (forall j, thf_ok s r h j) ->
  contents (e ++ h) q -> Z.of_nat (length q) = hi s - d_top s ->
  (forall (j : nat) v, q !! j = Some v -> r_load r (d_top s + Z.of_nat j) = Some v) ->
  0 <= d_top s <= hi s -> length (d_bufs s) = S (d_cur s) ->
  (forall j, in_phase (Some j) h (thf_phase (d_thf s j))) ->
  Forall (fun x => match x with ECall w _ | ELin w _ _ | ERet w _ => w = Some i end) e ->
  in_phase (Some i) (e ++ h) (thf_phase p) ->
  thf_ok (set_thf i p s) r (e ++ h) i ->
  inv k (set_thf i p s) (e ++ h).
Proof.
  intros Hr Hok Hcap Hsz Hown Htr Hthf Hq Hlen Hval Htop Hcur Hph He Hpi Hti.
  assert (hi (set_thf i p s) = hi s) as Ehi by done.
  split.
  - exists r. rewrite Ehi. split_and!; try done.
    + unfold own_tr, own_phase in *. simpl.
      assert (Forall (fun x : dev V => match x with ECall w' _ | ELin w' _ _ | ERet w' _ => w' <> None end) e) as He'.
      { eapply Forall_impl; [exact He|]. intros []; simpl; by intros ->. }
      destruct (d_own s) eqn:Eo; try by apply in_phase_app_other.
      destruct Htr as [v Htr]. exists v. by apply in_phase_app_other.
    + intros j. destruct (decide (j = i)) as [->|Hne]; [done|].
      eapply thf_ok_same; [apply Hthf|by apply thf_set_ne|done|done|done|].
      intros op Hin. rewrite Forall_forall in He. specialize (He _ Hin). simpl in He. congruence.
    + by exists q.
  - done.
  - done.
  - intros j. destruct (decide (j = i)) as [->|Hne]; [by rewrite thf_set_eq|].
    rewrite thf_set_ne by done. apply in_phase_app_other; [done|].
    eapply Forall_impl; [exact He|]. intros []; simpl; intros ->; congruence.
Qed.

Lemma thief_ok k s h i :
  inv k s h -> exists s' tr, thief i s = Next s' tr /\ inv k s' (rev tr ++ h).
Proof.
  intros [(r & Hr & Hok & Hcap & Hsz & Hown & Htr & Hthf & q & Hq & Hlen & Hval) Htop Hcur Hph].
  pose proof (Hthf i) as Hi. pose proof (Hph i) as Hpi.
  unfold thief, thf_ok in *. destruct (d_thf s i) as [| |t|t|t b|t x|x] eqn:Et; simpl in Hpi.
  - eexists _, _; split; [reflexivity|]. simpl rev.
    eapply (thief_local k s h r q i TTop [_]); try done.
    + by constructor.
    + by apply Forall_singleton.
    + by constructor.
    + unfold thf_ok. by rewrite thf_set_eq.
  - eexists _, _; split; [reflexivity|]. simpl rev.
    eapply (thief_local k s h r q i _ []); try done.
    unfold thf_ok. rewrite thf_set_eq. simpl. lia.
  - case_decide as Hb; (eexists _, _; split; [reflexivity|]); simpl rev.
    + eapply (thief_local k s h r q i _ []); try done.
      unfold thf_ok. rewrite thf_set_eq. simpl. destruct Hi as [H1 H2]. split_and!; [lia|lia|done|].
      intros <-. unfold hi, own_ok in *. simpl. destruct (d_own s); lia.
    + eapply (thief_local k s h r q i _ [_]); try done.
      * econstructor; [done|constructor].
      * by apply Forall_singleton.
      * by constructor.
      * unfold thf_ok. by rewrite thf_set_eq.
  - eexists _, _; split; [reflexivity|]; simpl rev.
    eapply (thief_local k s h r q i _ []); try done.
    unfold thf_ok. rewrite thf_set_eq. simpl. destruct Hi as (H1 & H2 & H3). split_and!; [lia|lia|done|].
    exists r. split; [done|]. intros E. split; [by apply H3|done].
  - destruct Hi as (H1 & H2 & rb & Hrb & H3). rewrite Hrb, decide_True by lia.
    eexists _, _; split; [reflexivity|]; simpl rev.
    eapply (thief_local k s h r q i _ []); try done.
    unfold thf_ok. rewrite thf_set_eq. simpl. split_and!; [lia|lia|done|done].
  - destruct Hi as (H1 & H2 & H3). case_decide as E.
    + destruct (H3 E) as [H4 H5].
      destruct q as [|v q]; [simpl in Hlen; lia|].
      assert (x = Some v) as ->. { rewrite H5, <- (Hval O v eq_refl). f_equal. lia. }
      eexists _, _; split; [reflexivity|]; simpl rev.
      assert (hi (set_thf i (TRet (RSome v)) (set_top (t + 1) s)) = hi s) as Ehi by done.
      assert (Forall (fun y : dev V => match y with ECall w' _ | ELin w' _ _ | ERet w' _ => w' = Some i end)
                [ELin (Some i) DSteal (RSome v)]) as He by by apply Forall_singleton.
      split; rewrite ?Ehi; simpl; [|lia|done|].
      * exists r. split_and!; try done.
        -- lia.
        -- unfold own_ok, hi in *. simpl. destruct (d_own s); try done; try lia.
           all: try by (destruct Hown as (?&?&?); split_and!; try done; lia).
           destruct Hown as (?&?&?&?&?&?); split_and!; try done; lia.
        -- unfold own_tr, own_phase in *. simpl.
           assert (Forall (fun y : dev V => match y with ECall w' _ | ELin w' _ _ | ERet w' _ => w' <> None end)
                     [ELin (Some i) DSteal (RSome v)]) as He' by by apply Forall_singleton.
           destruct (d_own s) eqn:Eo; try by apply (in_phase_app_other _ _ _ [_]).
           destruct Htr as [v' Htr]. exists v'. by apply (in_phase_app_other _ _ _ [_]).
        -- intros j. destruct (decide (j = i)) as [->|Hne]; [unfold thf_ok; by rewrite thf_set_eq|].
           eapply (thf_ok_mono s r h _ r [_]); [apply Hthf|by rewrite thf_set_ne|simpl; lia|set_solver| |simpl; lia|].
           ++ intros _. apply took_since_now. congruence.
           ++ simpl. eauto.
        -- exists q. split_and!.
           ++ econstructor; [done|constructor].
           ++ simpl in Hlen. lia.
           ++ intros j y Hj. rewrite <- (Hval (S j) y Hj). f_equal. lia.
      * intros j. destruct (decide (j = i)) as [->|Hne]; simpl.
        -- by constructor.
        -- apply (in_phase_app_other _ _ _ [_]); [done|]. apply Forall_singleton. congruence.
    + eexists _, _; split; [reflexivity|]; simpl rev.
      eapply (thief_local k s h r q i _ [_]); try done.
      * econstructor; [done|constructor].
      * by apply Forall_singleton.
      * by constructor.
      * unfold thf_ok. by rewrite thf_set_eq.
  - eexists _, _; split; [reflexivity|]; simpl rev.
    eapply (thief_local k s h r q i _ [_]); try done.
    + by constructor.
    + by apply Forall_singleton.
    + by econstructor.
    + unfold thf_ok. by rewrite thf_set_eq.
Qed.

Theorem step_ok k s h l : inv k s h -> exists s' tr, dstep_of l s = Next s' tr /\ inv k s' (rev tr ++ h).
Proof. destruct l; [apply owner_ok|apply thief_ok]. Qed.

Theorem reach_inv k s h : reach k s h -> inv k s h.
Proof.
  induction 1 as [|s h l s' tr Hr IH Hs]; [apply inv_init|].
  destruct (step_ok k s h l IH) as (s2 & tr2 & Hs2 & Hi). rewrite Hs in Hs2. by injection Hs2 as -> ->.
Qed.

End proofs.
