(** * Cost of the operations of the deque: proofs. *)

From stdpp Require Import prelude gmap list.
From Coq Require Import ZArith Lia.
From Verif Require Import DequeModel DequeSpec DequeProofs DequeLin DequeCostSpec.
Local Open Scope Z_scope.

Section cost.
Context {V : Type}.
Implicit Types (s : deque V) (h : list (dev V)) (l : dlab V).

(** ** Steps *)

Definition own_rank (p : opc V) : nat :=
  match p with
  | OIdle => 0
  | OPushTop _ _ => 6 | OPushBuf _ _ _ => 5 | OPushPub _ _ _ _ => 4 | OPushStore _ _ _ => 3 | OPushBot _ _ => 2 | OPushRet _ => 1
  | OPopStore _ => 5 | OPopTop _ => 4 | OPopCas _ _ => 3 | OPopRestore _ _ => 2 | OPopRet _ | OPopNone => 1
  end.
Definition thf_rank (p : tpc V) : nat :=
  match p with TIdle => 0 | TTop => 6 | TBot _ => 5 | TBuf _ => 4 | TSlot _ _ => 3 | TCas _ _ => 2 | TRet _ => 1 end.
Definition rank (w : option nat) s : nat :=
  match w with None => own_rank (d_own s) | Some i => thf_rank (d_thf s i) end.

Lemma rank_own op fail s s' tr : dstep_of (DOwner op fail) s = Next s' tr -> (0 < rank None s)%nat ->
  (exists x, ERet None x ∈ tr) \/ (0 < rank None s' < rank None s)%nat.
Proof.
  cbn. unfold owner, with_cur. intros E Hr.
  destruct (d_own s) eqn:Eo; cbn in Hr; [lia|..]; repeat case_match; try done; injection E as <- <-; cbn;
    try (right; lia); left; eexists; by left.
Qed.
Lemma rank_thf i s s' tr : dstep_of (DThief i) s = Next s' tr -> (0 < rank (Some i) s)%nat ->
  (exists x, ERet (Some i) x ∈ tr) \/ (0 < rank (Some i) s' < rank (Some i) s)%nat.
Proof.
  cbn. unfold thief. intros E Hr.
  destruct (d_thf s i) eqn:Eo; cbn in Hr; [lia|..]; repeat case_match; try done; injection E as <- <-; cbn;
    rewrite ?decide_True by done; cbn; try (right; lia); left; eexists; by left.
Qed.
Lemma rank_other w l s s' tr : dstep_of l s = Next s' tr -> party l <> w -> rank w s' = rank w s.
Proof.
  destruct l as [op fail|i]; cbn; intros E Hw.
  - destruct w as [j|]; [|done]. unfold owner, with_cur in E. repeat case_match; try done; injection E as <- <-; done.
  - unfold thief in E. destruct w as [j|].
    + assert (j <> i) by congruence. repeat case_match; try done; injection E as <- <-; cbn; by rewrite decide_False.
    + repeat case_match; try done; injection E as <- <-; done.
Qed.

Lemma exec_returns w s ls s' tr : exec s ls s' tr -> (0 < rank w s)%nat -> (rank w s <= steps_by w ls)%nat ->
  exists x, ERet w x ∈ tr.
Proof.
  induction 1 as [s|s l s1 tr1 ls s2 tr2 Hl _ IH]; intros H0 Hn; cbn in Hn; [lia|].
  assert (Hstep : (exists x, ERet w x ∈ tr1) \/ ((0 < rank w s1)%nat /\ (rank w s1 <= steps_by w ls)%nat)).
  { destruct (decide (party l = w)) as [Hw|Hw].
    - assert ((exists x, ERet w x ∈ tr1) \/ (0 < rank w s1 < rank w s)%nat) as [?|?]; [|by left|right; lia].
      destruct l as [op fail|i]; cbn in Hw; subst w; [by eapply rank_own|by eapply rank_thf].
    - rewrite (rank_other _ _ _ _ _ Hl Hw). right. lia. }
  destruct Hstep as [(x & Hx)|(H1 & H2)]; [|destruct (IH H1 H2) as (x & Hx)]; exists x; apply elem_of_app; auto.
Qed.

Lemma called_rank k s h w op : reach k s h -> in_phase w h (Called op) -> (0 < rank w s <= bound op)%nat.
Proof.
  intros Hr Hp. destruct (reach_inv _ _ _ Hr) as [(r & _ & _ & _ & _ & _ & Htr & _) _ _ Hth].
  destruct w as [i|]; cbn.
  - specialize (Hth i). pose proof (in_phase_fun _ _ _ Hth _ Hp) as E. destruct (d_thf s i); cbn in *; try done; injection E as <-; cbn; lia.
  - unfold own_tr in Htr. destruct (d_own s) eqn:Eo; try (destruct Htr as (v0 & Htr));
      pose proof (in_phase_fun _ _ _ Htr _ Hp) as E; unfold own_phase in E; rewrite ?Eo in E; repeat case_match; try done;
      injection E as <-; cbn; lia.
Qed.

(** ** Space *)

Lemma held_mono e h n : held h n -> held (e ++ h) n.
Proof. intros (h1 & h2 & q & -> & Hq & Hn). exists (e ++ h1), h2, q. by rewrite app_assoc. Qed.

(** The capacity has been needed; a push that found the buffer full has seen a full buffer. *)
Record grown (k : nat) s h : Prop := {
  gr_cap : d_cur s = 0%nat \/ exists n, held h n /\ 2 ^ Z.of_nat (k + d_cur s) <= 2 * Z.of_nat n;
  gr_push : match d_own s with
    | OPushBuf _ b t => exists n, held h n /\ Z.of_nat n = b - t
    | OPushPub _ _ _ _ => exists n, held h n /\ 2 ^ Z.of_nat (k + d_cur s) <= Z.of_nat n
    | _ => True
    end
}.

Lemma grown_frame k s h s' e : grown k s h -> d_cur s' = d_cur s ->
  match d_own s' with OPushBuf _ _ _ | OPushPub _ _ _ _ => d_own s' = d_own s | _ => True end -> grown k s' (e ++ h).
Proof.
  intros [Hc Hp] Ec Eo. split.
  - rewrite Ec. destruct Hc as [|(n & Hn & ?)]; [by left|right]. exists n. split; [by apply held_mono|done].
  - destruct (d_own s') eqn:E; try done; rewrite <- Eo in Hp; destruct Hp as (n & Hn & ?); exists n; rewrite ?Ec; (split; [by apply held_mono|done]).
Qed.

Lemma grown_step k s h l s' tr : reach k s h -> grown k s h -> dstep_of l s = Next s' tr -> grown k s' (rev tr ++ h).
Proof.
  intros Hr Hg E. destruct (reach_inv _ _ _ Hr) as [(r & Hcur & _ & Hcap & _ & Hown & _ & _ & q & Hq & Hlen & _) _ _ _].
  destruct l as [op fail|i]; cbn in E; cycle 1.
  { unfold thief in E. repeat case_match; try done; injection E as <- <-; (eapply grown_frame; [done|done|cbn; by destruct (d_own s)]). }
  unfold owner, with_cur in E. rewrite Hcur in E. unfold own_ok in Hown. unfold hi in Hlen.
  destruct (d_own s) as [|v b|v b t|v b t r'|v b t|v b|x|b|b|b t|b ok|b|] eqn:Eo.
  all: try (repeat case_match; try done; injection E as <- <-; (eapply grown_frame; [done|done|]); cbn; repeat case_match; done).
  - (* the load of m_top *)
    injection E as <- <-. split; cbn.
    + apply (gr_cap _ _ _ Hg).
    + exists (length q). split; [by exists [], h, q|]. lia.
  - (* the capacity check *)
    destruct Hg as [Hc Hp]. rewrite Eo in Hp. destruct Hp as (n & Hn & En).
    destruct (decide _) as [Hfull|].
    + destruct fail; [injection E as <- <-; split; cbn; [|done]; (destruct Hc as [|(n' & Hn' & ?)]; [by left|right; exists n'; split; [by apply (held_mono [_])|done]])|].
      destruct (decide (t <= b)); [|done]. injection E as <- <-. split; cbn; [done|].
      exists n. split; [done|]. lia.
    + injection E as <- <-. split; cbn; done.
  - (* the publication of the bigger buffer *)
    destruct Hg as [Hc Hp]. rewrite Eo in Hp. destruct Hp as (n & Hn & En). injection E as <- <-.
    destruct (reach_inv _ _ _ Hr) as [_ _ Hcl _]. split; cbn; [|done]. right. exists n. split; [done|].
    rewrite Hcl. rewrite Nat.add_succ_r, Nat2Z.inj_succ, Z.pow_succ_r by lia. lia.
Qed.

Lemma reach_grown k s h : reach k s h -> grown k s h.
Proof.
  induction 1 as [|s h l s' tr Hr IH E]; [split; [by left|done]|]. by eapply grown_step.
Qed.

(** Buffer number [j] has capacity [2^(k+j)]. *)
Lemma reach_bufs k s h : reach k s h -> forall j r, d_bufs s !! j = Some r -> r_cap r = 2 ^ Z.of_nat (k + j).
Proof.
  induction 1 as [|s h l s' tr Hr IH E]; intros j r Hj.
  - cbn in Hj. destruct j; [|done]. injection Hj as <-. cbn. by rewrite Nat.add_0_r.
  - destruct (reach_inv _ _ _ Hr) as [(r0 & Hcur & _ & Hcap & _ & Hown & _) _ Hcl _].
    destruct l as [op fail|i]; cbn in E.
    + unfold owner, with_cur in E. rewrite Hcur in E. unfold own_ok in Hown.
      destruct (d_own s) eqn:Eo.
      all: try (repeat case_match; try done; injection E as <- <-; cbn in Hj; by apply IH).
      * injection E as <- <-. cbn in Hj. apply lookup_app_Some in Hj as [Hj|(Hle & Hj)]; [by apply IH|].
        apply list_lookup_singleton_Some in Hj as (Hj & <-). assert (j = length (d_bufs s)) as -> by lia.
        destruct Hown as (_ & _ & _ & -> & _). rewrite Hcl, Hcap, Nat.add_succ_r, Nat2Z.inj_succ, Z.pow_succ_r by lia. done.
      * repeat case_match; try done; injection E as <- <-; cbn in Hj.
        destruct (decide (j = d_cur s)) as [->|Hne].
        -- rewrite list_lookup_insert in Hj by (by eapply lookup_lt_Some). injection Hj as <-. done.
        -- rewrite list_lookup_insert_ne in Hj by done. by apply IH.
    + unfold thief in E. repeat case_match; try done; injection E as <- <-; cbn in Hj; by apply IH.
Qed.

Lemma sum_caps (k : nat) (rs : list (ring V)) : (forall j r, rs !! j = Some r -> r_cap r = 2 ^ Z.of_nat (k + j)) ->
  foldr (fun r n => r_cap r + n) 0 rs = 2 ^ Z.of_nat (k + length rs) - 2 ^ Z.of_nat k.
Proof.
  revert k. induction rs as [|r rs IH]; intros k H; cbn [foldr length].
  - rewrite Nat.add_0_r. lia.
  - rewrite (IH (S k)).
    + specialize (H 0%nat r eq_refl). rewrite Nat.add_0_r in H. rewrite H, !Nat2Z.inj_add, !Nat2Z.inj_succ.
      replace (Z.succ (Z.of_nat k) + Z.of_nat (length rs)) with (Z.of_nat k + Z.succ (Z.of_nat (length rs))) by lia.
      rewrite (Z.pow_succ_r 2 (Z.of_nat k)) by lia. lia.
    + intros j r' Hj. specialize (H (S j) r' Hj). rewrite H. f_equal. f_equal. lia.
Qed.

Lemma reach_slots k s h : reach k s h -> slots s = 2 ^ Z.of_nat (k + length (d_bufs s)) - 2 ^ Z.of_nat k.
Proof. intros Hr. apply sum_caps. by eapply reach_bufs. Qed.

(** ** Copying *)

Lemma rc_reach k s h c : reach_copying k s h c -> reach k s h.
Proof. induction 1; [constructor|by eapply reach_step]. Qed.

(** What is paid for: a copy to the buffer that is about to be published counts as that of the
    current one. *)
Definition paid (k : nat) s : Z :=
  match d_own s with
  | OPushPub _ _ _ _ => 2 ^ Z.of_nat (k + S (d_cur s)) - 2 ^ Z.of_nat k
  | _ => 2 ^ Z.of_nat (k + d_cur s) - 2 ^ Z.of_nat k
  end.

Lemma rc_paid k s h c : reach_copying k s h c -> c <= paid k s.
Proof.
  induction 1 as [|s h c l s' tr Hc IH E]; [unfold paid; cbn; rewrite Nat.add_0_r; lia|].
  pose proof (rc_reach _ _ _ _ Hc) as Hr.
  destruct (reach_inv _ _ _ Hr) as [(r & Hcur & _ & Hcap & _ & Hown & _) _ Hcl _].
  destruct l as [op fail|i]; cbn in E; cycle 1.
  { cbn [copied]. unfold thief in E. unfold paid in *. repeat case_match; try done; injection E as <- <-; cbn in *; try congruence; lia. }
  unfold owner, with_cur in E. rewrite Hcur in E. unfold own_ok in Hown. unfold paid, copied in *. rewrite Hcur.
  destruct (d_own s) eqn:Eo.
  all: try (destruct fail; repeat case_match; try done; injection E as <- <-; cbn in *; try congruence; lia).
  - destruct Hown as (_ & Ht & Hb). destruct (decide _) as [Hfull|].
    + destruct fail; [injection E as <- <-; cbn; lia|].
      destruct (decide (t <= b)); [|done]. injection E as <- <-. cbn.
      rewrite Nat.add_succ_r, Nat2Z.inj_succ, Z.pow_succ_r by lia. lia.
    + injection E as <- <-. cbn. destruct fail; lia.
  - injection E as <- <-. cbn. destruct fail; rewrite Hcl; lia.
Qed.
End cost.
