(** * The event count: invariant. *)

From stdpp Require Import prelude list.
From Coq Require Import NArith Lia ZifyN ZifyNat.
From Verif Require Import EventModel EventSpec.
Local Open Scope N_scope.
Global Arguments N.add : simpl never.
Global Arguments N.sub : simpl never.
Global Arguments N.mul : simpl never.
Global Arguments N.pow : simpl never.
Global Arguments N.modulo : simpl never.
Global Arguments N.land : simpl never.
Global Arguments N.shiftr : simpl never.

(** ** Arithmetic of the packed counter *)

Definition pack (e w : N) : N := e * 2 ^ 32 + w.

Lemma pow64 : 2 ^ 64 = 2 ^ 32 * 2 ^ 32. Proof. done. Qed.

Lemma waiters_pack e w : w < 2 ^ 32 -> waiters (pack e w) = w.
Proof.
  intros Hw. unfold waiters, pack.
  replace k_waiter_mask with (N.ones 32) by done. rewrite N.land_ones.
  rewrite N.add_comm, N.mod_add by done. by apply N.mod_small.
Qed.

Lemma epoch_pack e w : w < 2 ^ 32 -> epoch (pack e w) = e.
Proof.
  intros Hw. unfold epoch, pack. rewrite N.shiftr_div_pow2. change (2 ^ k_epoch_shift) with (2 ^ 32).
  rewrite N.add_comm, N.div_add by done. rewrite N.div_small by done. lia.
Qed.

Lemma add_waiter_pack e w : e < 2 ^ 32 -> w + 1 < 2 ^ 32 -> fetch_add (pack e w) k_add_waiter = pack e (w + 1).
Proof.
  intros He Hw. unfold fetch_add, pack, k_add_waiter. rewrite N.mod_small; [lia|]. rewrite pow64. nia.
Qed.

Lemma sub_waiter_pack e w : e < 2 ^ 32 -> w < 2 ^ 32 -> w <> 0 -> fetch_add (pack e w) k_sub_waiter = pack e (w - 1).
Proof.
  intros He Hw Hz. unfold fetch_add, pack, k_sub_waiter.
  replace (e * 2 ^ 32 + w + (2 ^ 64 - 1)) with ((e * 2 ^ 32 + (w - 1)) + 1 * 2 ^ 64).
  - rewrite N.mod_add by done. apply N.mod_small. rewrite pow64. nia.
  - assert (2 ^ 64 <> 0) by done. lia.
Qed.

Lemma add_epoch_pack e w : w < 2 ^ 32 -> fetch_add (pack e w) k_add_epoch = pack ((e + 1) mod 2 ^ 32) w.
Proof.
  intros Hw. unfold fetch_add, pack. replace k_add_epoch with (2 ^ 32) by done.
  rewrite pow64. replace (e * 2 ^ 32 + w + 2 ^ 32) with (w + 2 ^ 32 * (e + 1)) by lia.
  rewrite N.mod_mul_r by done.
  replace ((w + 2 ^ 32 * (e + 1)) mod 2 ^ 32) with w.
  - replace ((w + 2 ^ 32 * (e + 1)) / 2 ^ 32) with (e + 1); [lia|].
    rewrite (N.mul_comm (2 ^ 32)), N.div_add by done. rewrite N.div_small by done. lia.
  - rewrite (N.mul_comm (2 ^ 32)), N.mod_add by done. symmetry. by apply N.mod_small.
Qed.

Lemma pack_inj e w e' w' : w < 2 ^ 32 -> w' < 2 ^ 32 -> pack e w = pack e' w' -> e = e' /\ w = w'.
Proof.
  intros Hw Hw' E. split.
  - rewrite <- (epoch_pack e w Hw), E. by apply epoch_pack.
  - rewrite <- (waiters_pack e w Hw), E. by apply waiters_pack.
Qed.

(** ** Counting *)

Definition reg_pc (p : epc) : bool :=
  match p with
  | EPrepared _ | EWaiting _ _ | EBlocked _ _ | EUnreg _ | ECancel _ | EAwCond _ => true
  | _ => false
  end.
Definition cnt (l : list epc) : nat := length (filter (fun p => reg_pc p = true) l).
Definition b2n (b : bool) : nat := if b then 1%nat else 0%nat.

Lemma cnt_cons p l : cnt (p :: l) = (b2n (reg_pc p) + cnt l)%nat.
Proof. unfold cnt. rewrite filter_cons. by destruct (reg_pc p). Qed.

Lemma cnt_insert l i p p' : l !! i = Some p -> (cnt (<[i := p']> l) + b2n (reg_pc p) = cnt l + b2n (reg_pc p'))%nat.
Proof.
  revert i. induction l as [|q l IH]; intros i; [done|]. destruct i as [|i]; simpl.
  - intros [= ->]. rewrite !cnt_cons. lia.
  - intros Hi. rewrite !cnt_cons. specialize (IH _ Hi). lia.
Qed.

Lemma cnt_unblock l : cnt (unblock <$> l) = cnt l.
Proof.
  induction l as [|q l IH]; [done|]. rewrite fmap_cons, !cnt_cons, IH. by destruct q.
Qed.

Lemma cnt_le l : (cnt l <= length l)%nat.
Proof. unfold cnt. apply filter_length. Qed.

(** ** The invariant *)

Definition ev_t (e : eev) : nat :=
  match e with
  | VPrepare i | VUnregister i | VNotify i _ | VNotified i | VAwaitCall i | VCond i _ | VAwaitRet i | VAwaitThrow i _ => i
  end.

Definition key_ok (i : nat) (k : N) (h : list eev) : Prop :=
  exists m, k = N.of_nat m mod 2 ^ 32 /\ n_notify h = (m + n_notify (since_prepare i h))%nat.

Definition aw_ok (p : epc) (a : bool) (c : option cond) : Prop :=
  match p with
  | EIdle | EPrepared _ | EWaiting _ false | EBlocked _ false | EUnreg false | ECancel AUser | EWake _ => a = false
  | EWaiting _ true | EBlocked _ true | EUnreg true | EAwPrepare => a = true /\ c = Some CFalse
  | EAwFirst => a = true /\ c = None
  | EAwCond _ => a = true
  | ECancel AReturn => a = true /\ c = Some CTrue
  | ECancel (ARethrow e) => a = true /\ c = Some (CThrow e)
  end.

Record tok (i : nat) (p : epc) (h : list eev) : Prop := {
  t_reg : registered i h = reg_pc p;
  t_key : match p with EPrepared k | EWaiting k _ | EBlocked k _ | EAwCond k => key_ok i k h | _ => True end;
  t_all : notifying_all i h = match p with EWake a => a | _ => false end;
  t_aw : aw_ok p (in_await i h) (last_cond i h)
}.

Definition blk (s : ecount) (h : list eev) : Prop :=
  forall i k aw, e_pcs s !! i = Some (EBlocked k aw) ->
    N.of_nat (n_notify (since_prepare i h)) < 2 ^ 32 ->
    (exists j, VNotify j true ∈ since_prepare i h) ->
    exists j, e_pcs s !! j = Some (EWake true).

Record einv (n : nat) (s : ecount) (h : list eev) : Prop := {
  i_len : length (e_pcs s) = n;
  i_val : e_val s = pack (N.of_nat (n_notify h) mod 2 ^ 32) (N.of_nat (cnt (e_pcs s)));
  i_tok : forall i p, e_pcs s !! i = Some p -> tok i p h;
  i_blk : blk s h
}.

Lemma tok_other i p e h : ev_t e <> i -> tok i p h -> tok i p (e :: h).
Proof.
  intros Hne [H1 H2 H3 H4].
  assert (registered i (e :: h) = registered i h) as E1 by (destruct e; simpl in *; rewrite ?decide_False by congruence; done).
  assert (notifying_all i (e :: h) = notifying_all i h) as E3 by (destruct e; simpl in *; rewrite ?decide_False by congruence; done).
  assert (in_await i (e :: h) = in_await i h) as E4 by (destruct e; simpl in *; rewrite ?decide_False by congruence; done).
  assert (last_cond i (e :: h) = last_cond i h) as E5 by (destruct e; simpl in *; rewrite ?decide_False by congruence; done).
  assert (since_prepare i (e :: h) = e :: since_prepare i h) as E6 by (destruct e; simpl in *; rewrite ?decide_False by congruence; done).
  assert (forall k, key_ok i k h -> key_ok i k (e :: h)) as E2.
  { intros k (m & Hk & Hm). exists m. split; [done|]. rewrite E6. destruct e; simpl; lia. }
  split; rewrite ?E1, ?E3, ?E4, ?E5; try done. destruct p; try done; by apply E2.
Qed.

(** Events of thread [i] that are neither VPrepare nor VNotify do not change what
    its key means. *)
Lemma key_same i k e h : (forall j, e <> VPrepare j) -> (forall j a, e <> VNotify j a) -> key_ok i k h -> key_ok i k (e :: h).
Proof.
  intros H1 H2 (m & Hk & Hm). exists m. split; [done|]. destruct e; simpl; try done.
  - by destruct (H1 i0).
  - by destruct (H2 i0 all).
Qed.

Lemma key_new i h : key_ok i (N.of_nat (n_notify h) mod 2 ^ 32) (VPrepare i :: h).
Proof. exists (n_notify h). split; [done|]. simpl. rewrite decide_True by done. simpl. lia. Qed.

Lemma einv_init n : einv n (einit n) [].
Proof.
  split; simpl.
  - apply replicate_length.
  - replace (cnt (replicate n EIdle)) with O; [done|]. induction n; [done|]. simpl. by rewrite cnt_cons, <- IHn.
  - intros i p [-> _]%lookup_replicate. by split.
  - intros i k aw [? _]%lookup_replicate. done.
Qed.

(** A step of thread [i] that changes only its program counter and the value. *)
Lemma einv_step n s h i p p' v e :
  N.of_nat n < 2 ^ 32 ->
  einv n s h -> e_pcs s !! i = Some p ->
  v = pack (N.of_nat (n_notify (e ++ h)) mod 2 ^ 32) (N.of_nat (cnt (e_pcs s) + b2n (reg_pc p') - b2n (reg_pc p))) ->
  Forall (fun x => ev_t x = i) e ->
  tok i p' (e ++ h) ->
  (p = EWake true -> False) ->
  ((exists j, VNotify j true ∈ e) -> p' = EWake true) ->
  (forall k aw, p' = EBlocked k aw -> epoch (e_val s) = k /\ e = []) ->
  einv n (set_pc i p' (set_val v s)) (e ++ h).
Proof.
  intros Hn [Hlen Hval Htok Hblk] Hi -> He Ht Hw Hall Hb.
  assert (i < length (e_pcs s))%nat as Hlt by by eapply lookup_lt_Some.
  split; simpl.
  - by rewrite insert_length.
  - f_equal. pose proof (cnt_insert (e_pcs s) i p p' Hi). lia.
  - intros j q. destruct (decide (j = i)) as [->|Hne].
    + rewrite list_lookup_insert by done. by intros [= <-].
    + rewrite list_lookup_insert_ne by done. intros Hj. specialize (Htok _ _ Hj).
      clear Ht Hall Hb. induction He as [|x e Hx He IH]; [done|]. simpl. apply tok_other; [congruence|done].
  - intros j k aw. simpl. destruct (decide (j = i)) as [->|Hne].
    + rewrite list_lookup_insert by done. intros [= ->]. destruct (Hb k aw eq_refl) as [Hep ->]. simpl.
      intros Hc [l Hl]. exfalso.
      destruct Ht as [_ (m & Hk & Hm) _ _]. simpl in *.
      rewrite Hval, epoch_pack in Hep by (pose proof (cnt_le (e_pcs s)); lia).
      assert (n_notify (since_prepare i h) <> 0)%nat as Hpos.
      { clear -Hl. induction (since_prepare i h) as [|x t IH]; [by apply elem_of_nil in Hl|].
        apply elem_of_cons in Hl as [<-|Hl]; simpl; [lia|]. specialize (IH Hl). destruct x; simpl; lia. }
      rewrite <- Hep in Hk. rewrite Hm, Nat2N.inj_add in Hk.
      set (c := N.of_nat (n_notify (since_prepare i h))) in *. set (mm := N.of_nat m) in *.
      pose proof (N.div_mod' (mm + c) (2 ^ 32)). pose proof (N.div_mod' mm (2 ^ 32)).
      assert (c = 2 ^ 32 * ((mm + c) / 2 ^ 32 - mm / 2 ^ 32)) by (pose proof (N.div_le_mono mm (mm + c) (2 ^ 32)); lia).
      assert ((mm + c) / 2 ^ 32 - mm / 2 ^ 32 = 0) by nia. lia.
    + rewrite list_lookup_insert_ne by done. intros Hj Hc Hex.
      assert (since_prepare j (e ++ h) = e ++ since_prepare j h) as Es.
      { clear -He Hne. induction He as [|x e Hx He IH]; [done|]. simpl.
        destruct x; simpl in *; rewrite ?decide_False by congruence; by rewrite IH. }
      rewrite Es in Hc, Hex. destruct Hex as [l Hl]. apply elem_of_app in Hl as [Hl|Hl].
      * exists i. rewrite list_lookup_insert by done. f_equal. apply Hall. eauto.
      * destruct (Hblk j k aw Hj) as [l' Hl']; [|eauto|].
        -- eapply N.le_lt_trans; [|exact Hc]. clear. induction e as [|x e IH]; simpl; [lia|]. destruct x; simpl; lia.
        -- exists l'. rewrite list_lookup_insert_ne; [done|]. intros ->. rewrite Hi in Hl'. injection Hl' as ->. by apply Hw.
Qed.

Lemma tok_pc i p p' h :
  tok i p h -> reg_pc p' = reg_pc p ->
  (match p' with EPrepared k | EWaiting k _ | EBlocked k _ | EAwCond k => key_ok i k h | _ => True end) ->
  (match p' with EWake a => a | _ => false end) = (match p with EWake a => a | _ => false end) ->
  aw_ok p' (in_await i h) (last_cond i h) -> tok i p' h.
Proof. intros [H1 H2 H3 H4] E1 E2 E3 E4. split; try done; congruence. Qed.

Lemma estep_ok n l s h :
  N.of_nat n < 2 ^ 32 -> einv n s h ->
  match estep_of l s with Next s' tr => einv n s' (rev tr ++ h) | Undef => False | Blocked => True end.
Proof.
  intros Hn Hinv. pose proof Hinv as [Hlen Hval Htok Hblk].
  pose proof (cnt_le (e_pcs s)) as Hcle.
  assert (N.of_nat (n_notify h) mod 2 ^ 32 < 2 ^ 32) as He by (apply N.mod_lt; done).
  assert (N.of_nat (cnt (e_pcs s)) < 2 ^ 32) as Hc by lia.
  assert (waiters (e_val s) = N.of_nat (cnt (e_pcs s))) as Hwt by (rewrite Hval; by apply waiters_pack).
  assert (epoch (e_val s) = N.of_nat (n_notify h) mod 2 ^ 32) as Hep by (rewrite Hval; by apply epoch_pack).
  assert (forall i p, e_pcs s !! i = Some p -> reg_pc p = true -> (0 < cnt (e_pcs s))%nat) as Hpos.
  { intros i p Hi Hr. pose proof (cnt_insert (e_pcs s) i p EIdle Hi). rewrite Hr in H. simpl in H. lia. }
  assert (forall i p, e_pcs s !! i = Some p -> reg_pc p = false -> (cnt (e_pcs s) < n)%nat) as Hfree.
  { intros i p Hi Hr. pose proof (cnt_insert (e_pcs s) i p (EUnreg false) Hi). rewrite Hr in H. simpl in H.
    pose proof (cnt_le (<[i:=EUnreg false]> (e_pcs s))) as Hl. rewrite insert_length in Hl. lia. }
  assert (set_val (e_val s) s = s) as Hset by (by destruct s).
  destruct l as [i c|i]; simpl; cycle 1.
  { (* spurious *)
    destruct (e_pcs s !! i) as [[]|] eqn:Hi; try done. simpl.
    pose proof (Htok _ _ Hi) as T.
    rewrite <- Hset. apply (einv_step n s h i (EBlocked k aw) _ _ []); try done.
    - simpl. rewrite Hval. f_equal. lia.
    - eapply tok_pc; [done|done|apply T|done|]. destruct T as [_ _ _ T]. by destruct aw.
    - intros [j Hj]. by apply elem_of_nil in Hj. }
  unfold thread. destruct (e_pcs s !! i) as [p|] eqn:Hi; [|done].
  pose proof (Htok _ _ Hi) as T. pose proof T as [T1 T2 T3 T4].
  pose proof (Hpos _ _ Hi) as Hpos'. pose proof (Hfree _ _ Hi) as Hfree'.
  assert (forall p' : epc, reg_pc p' = reg_pc p -> (p <> EWake true) -> tok i p' h ->
    (forall k aw, p' = EBlocked k aw -> epoch (e_val s) = k) -> einv n (set_pc i p' s) h) as Hlocal.
  { intros p' Hr Hw Ht Hb. rewrite <- Hset. apply (einv_step n s h i p _ _ []); try done.
    - simpl. rewrite Hval. f_equal. rewrite Hr. lia.
    - intros [j Hj]. by apply elem_of_nil in Hj.
    - intros k aw E. split; [by eapply Hb|done]. }
  assert (forall p' e, reg_pc p' = reg_pc p -> p <> EWake true -> (forall k aw, p' <> EBlocked k aw) ->
    Forall (fun x => ev_t x = i) e -> (forall j a, VNotify j a ∉ e) ->
    tok i p' (e ++ h) -> einv n (set_pc i p' s) (e ++ h)) as Hev.
  { intros p' e Hr Hw Hb HF Hnn Ht. rewrite <- Hset. apply (einv_step n s h i p _ _ e); try done.
    - replace (n_notify (e ++ h)) with (n_notify h).
      + rewrite Hval. f_equal. rewrite Hr. lia.
      + clear -Hnn. induction e as [|x e IH]; [done|]. simpl.
        destruct x; try (apply IH; set_solver). destruct (Hnn i all). set_solver.
    - intros [j Hj]. by destruct (Hnn j true).
    - intros k aw ->. by destruct (Hb k aw). }
  assert (forall p' e, reg_pc p = true -> reg_pc p' = false -> p <> EWake true -> e <> [] ->
    Forall (fun x => ev_t x = i) e -> (forall j a, VNotify j a ∉ e) ->
    (forall v, unregister (e_val s) = Some v -> tok i p' (e ++ h) ->
     einv n (set_pc i p' (set_val v s)) (e ++ h))) as Hunreg.
  { intros p' e Hr Hr' Hw Hne HF Hnn v Hv Ht.
    unfold unregister in Hv. case_decide; [|done]. injection Hv as <-.
    apply (einv_step n s h i p _ _ e); try done.
    - replace (n_notify (e ++ h)) with (n_notify h).
      + rewrite Hval, Hr, Hr'. simpl. specialize (Hpos' Hr). rewrite sub_waiter_pack by lia. f_equal. lia.
      + clear -Hnn. induction e as [|x e IH]; [done|]. simpl.
        destruct x; try (apply IH; set_solver). destruct (Hnn i all). set_solver.
    - intros [j Hj]. by destruct (Hnn j true).
    - intros k aw ->. done. }
  assert (forall p', reg_pc p = false -> reg_pc p' = true -> p <> EWake true -> (forall k aw, p' <> EBlocked k aw) ->
    tok i p' (VPrepare i :: h) ->
    einv n (set_pc i p' (set_val (fetch_add (e_val s) k_add_waiter) s)) (VPrepare i :: h)) as Hprep.
  { intros p' Hr Hr' Hw Hb Ht. apply (einv_step n s h i p _ _ [_]); try done.
    - rewrite Hval, Hr, Hr'. simpl. specialize (Hfree' Hr). rewrite add_waiter_pack by lia. f_equal. lia.
    - by apply Forall_singleton.
    - intros [j Hj]. by apply elem_of_list_singleton in Hj.
    - intros k aw ->. by destruct (Hb k aw). }
  assert (reg_pc p = true -> is_Some (unregister (e_val s))) as Hun.
  { intros Hr. specialize (Hpos' Hr). unfold unregister. rewrite Hwt. case_decide; [eauto|lia]. }
  destruct p as [|k|k aw|k aw|aw|a|all| | |k]; simpl in Hlocal, Hev, Hunreg, Hprep, Hun.
  - (* idle *)
    destruct c; try done.
    + (* notify *)
      case_decide as Hw.
      * simpl. apply (einv_step n s h i EIdle _ _ [_]); try done.
        -- simpl. rewrite Hval, add_epoch_pack by lia. f_equal; [|lia].
           rewrite N.add_mod_idemp_l by done. f_equal. lia.
        -- by apply Forall_singleton.
        -- split; simpl; rewrite ?decide_True by done; done.
        -- intros [j Hj]. apply elem_of_list_singleton in Hj. by injection Hj as -> <-.
      * simpl. assert (cnt (e_pcs s) = 0)%nat as H0 by lia.
        split; simpl.
        -- done.
        -- rewrite Hval, add_epoch_pack by lia. f_equal.
           rewrite N.add_mod_idemp_l by done. f_equal. lia.
        -- intros j q Hj. destruct (decide (j = i)) as [->|Hne].
           ++ rewrite Hi in Hj. injection Hj as <-.
              split; simpl; rewrite ?decide_True by done; done.
           ++ apply tok_other; [simpl; congruence|]. apply tok_other; [simpl; congruence|]. by apply Htok.
        -- intros j k aw Hj. simpl in Hj.
           specialize (Hpos _ _ Hj eq_refl). lia.
    + (* prepare *)
      unfold prepare_wait. simpl. apply Hprep; try done.
      split; simpl; rewrite ?decide_True by done; try done. rewrite Hep. apply key_new.
    + (* await *)
      apply (Hev _ [_]); try done.
      * by apply Forall_singleton.
      * set_solver.
      * split; simpl; rewrite ?decide_True by done; try done.
  - destruct c; try done; simpl; apply Hlocal; try done; by split.
  - (* waiting *)
    case_decide as E; simpl; (apply Hlocal; [done|done|split; try done; by destruct aw|]).
    + intros k1 aw1 Heq. injection Heq. congruence.
    + done.
  - by destruct c.
  - (* unregister *)
    destruct (unregister (e_val s)) as [v|] eqn:Eu; [|by destruct Hun].
    simpl. apply (Hunreg _ [_]); try done.
    + by destruct aw.
    + by apply Forall_singleton.
    + set_solver.
    + split; simpl; rewrite ?decide_True by done; try done; by destruct aw.
  - (* cancel *)
    destruct (unregister (e_val s)) as [v|] eqn:Eu; [|by destruct Hun].
    destruct a as [| |ex]; simpl.
    + apply (Hunreg _ [_]); try done.
      * by apply Forall_singleton.
      * set_solver.
      * split; simpl; rewrite ?decide_True by done; try done.
    + apply (Hunreg _ [_; _]); try done.
      * by repeat constructor.
      * set_solver.
      * split; simpl; rewrite ?decide_True by done; try done.
    + apply (Hunreg _ [_; _]); try done.
      * by repeat constructor.
      * set_solver.
      * split; simpl; rewrite ?decide_True by done; try done.
  - (* wake *)
    destruct all.
    + assert (i < length (e_pcs s))%nat as Hlt by by eapply lookup_lt_Some.
      assert (match EWake true, c with EWake true, _ => True | _, _ => False end) as _ by done.
      simpl. split; simpl.
      * by rewrite insert_length, fmap_length.
      * rewrite Hval. f_equal. f_equal.
        pose proof (cnt_insert (unblock <$> e_pcs s) i (EWake true) EIdle) as Hci.
        rewrite list_lookup_fmap, Hi, cnt_unblock in Hci. specialize (Hci eq_refl). simpl in Hci. lia.
      * intros j q. destruct (decide (j = i)) as [->|Hne].
        -- rewrite list_lookup_insert by by rewrite fmap_length. intros [= <-].
           split; simpl; rewrite ?decide_True by done; try done.
        -- rewrite list_lookup_insert_ne by done. rewrite list_lookup_fmap.
           destruct (e_pcs s !! j) as [q0|] eqn:Hj; [|done]. simpl. intros [= <-].
           apply tok_other; [simpl; congruence|]. specialize (Htok _ _ Hj). destruct Htok as [A1 A2 A3 A4].
           split; destruct q0 as [| | |? []| | | | | |]; done.
      * intros j k aw. simpl. destruct (decide (j = i)) as [->|Hne].
        -- by rewrite list_lookup_insert by by rewrite fmap_length.
        -- rewrite list_lookup_insert_ne by done. rewrite list_lookup_fmap.
           destruct (e_pcs s !! j) as [[]|]; done.
    + destruct c as [| | | | | |j|]; try done.
      * destruct (e_pcs s !! j) as [[]|] eqn:Hj; try done. simpl.
        assert (i <> j) as Hij by congruence.
        assert (einv n (set_pc i EIdle s) (VNotified i :: h)) as H1.
        { apply (Hev _ [_]); try done.
          - by apply Forall_singleton.
          - set_solver.
          - split; simpl; rewrite ?decide_True by done; try done. }
        assert (set_pc i EIdle (set_pc j (EWaiting k aw) s) = set_pc j (EWaiting k aw) (set_pc i EIdle s)) as ->.
        { unfold set_pc; simpl. f_equal. by rewrite list_insert_commute. }
        assert (e_pcs (set_pc i EIdle s) !! j = Some (EBlocked k aw)) as Hj' by (simpl; by rewrite list_lookup_insert_ne).
        pose proof (i_tok _ _ _ H1 _ _ Hj') as T'.
        assert (set_val (e_val s) (set_pc i EIdle s) = set_pc i EIdle s) as <- by done.
        apply (einv_step n (set_pc i EIdle s) _ j (EBlocked k aw) _ _ []); try done.
        -- simpl. rewrite Hval. f_equal. pose proof (cnt_insert (e_pcs s) i _ EIdle Hi) as Hci. simpl in Hci. lia.
        -- eapply tok_pc; [done|done|apply T'|done|]. destruct T' as [_ _ _ T']. by destruct aw.
        -- intros [l Hl]. by apply elem_of_nil in Hl.
      * destruct (existsb is_blocked (e_pcs s)); [done|]. simpl.
        apply (Hev _ [_]); try done.
        -- by apply Forall_singleton.
        -- set_solver.
        -- split; simpl; rewrite ?decide_True by done; try done.
  - (* await: first condition *)
    destruct c as [| | | | |[]| |]; try done; simpl.
    + apply (Hev _ [_; _]); try done; [by repeat constructor|set_solver|].
      split; simpl; rewrite ?decide_True by done; try done.
    + apply (Hev _ [_]); try done; [by repeat constructor|set_solver|].
      split; simpl; rewrite ?decide_True by done; try done. by destruct T4.
    + apply (Hev _ [_; _]); try done; [by repeat constructor|set_solver|].
      split; simpl; rewrite ?decide_True by done; try done.
  - (* await: prepare *)
    unfold prepare_wait. simpl. apply Hprep; try done.
    split; simpl; rewrite ?decide_True by done; try done; [|by destruct T4]. rewrite Hep. apply key_new.
  - (* await: condition *)
    destruct c as [| | | | |[]| |]; try done; simpl; (apply (Hev _ [_]); try done; [by repeat constructor|set_solver|]);
      (split; simpl; rewrite ?decide_True by done; try done); try (by split).
Qed.

Theorem ereach_inv n s h : N.of_nat n < 2 ^ 32 -> ereach n s h -> einv n s h.
Proof.
  intros Hn. induction 1 as [|s h l s' tr Hr IH Hs]; [apply einv_init|].
  pose proof (estep_ok n l s h Hn IH) as H. by rewrite Hs in H.
Qed.
