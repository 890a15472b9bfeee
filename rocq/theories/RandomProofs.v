(** * Proofs about the random number generator.

    The transition function is linear over the field with two elements.  A polynomial
    with 0-1 coefficients, written as a number, acts on the states: [act p m] is the sum
    of the states after [i] steps over the bits [i] of [p].  The characteristic
    polynomial [charp] acts as zero, which is checked on the 256 states with one bit. *)

From Coq Require Import NArith List Lia Bool Ring.
From Verif Require Import RandomModel RandomSpec.
Import ListNotations.
Local Open Scope N_scope.

Notation "a ⊕ b" := (xor_state a b) (at level 50, left associativity).
Definition T (m : state) : state := fst (next m).

(** ** States form a vector space *)
Lemma xs_comm a b : a ⊕ b = b ⊕ a.
Proof. unfold xor_state. f_equal; apply N.lxor_comm. Qed.
Lemma xs_assoc a b c : a ⊕ (b ⊕ c) = a ⊕ b ⊕ c.
Proof. unfold xor_state. simpl. f_equal; symmetry; apply N.lxor_assoc. Qed.
Lemma xs_zero_r a : a ⊕ zero = a.
Proof. destruct a. unfold xor_state. simpl. f_equal; apply N.lxor_0_r. Qed.
Lemma xs_zero_l a : zero ⊕ a = a.
Proof. rewrite xs_comm. apply xs_zero_r. Qed.
Lemma xs_nil a : a ⊕ a = zero.
Proof. unfold xor_state, zero. f_equal; apply N.lxor_nilpotent. Qed.
Lemma xs_cancel a b : a ⊕ b = zero -> a = b.
Proof. intros H. rewrite <- (xs_zero_r a), <- (xs_nil b), xs_assoc, H. apply xs_zero_l. Qed.
Lemma xs_swap a b c d : (a ⊕ b) ⊕ (c ⊕ d) = (a ⊕ c) ⊕ (b ⊕ d).
Proof. rewrite <- !xs_assoc. f_equal. rewrite !xs_assoc. f_equal. apply xs_comm. Qed.

(** ** Words *)
Lemma bits_above a n i : a < 2 ^ n -> n <= i -> N.testbit a i = false.
Proof.
  intros Ha Hi. destruct (N.eq_dec a 0) as [->|Hn]; [apply N.bits_0|]. apply N.bits_above_log2.
  apply N.lt_le_trans with n; [|exact Hi]. apply N.log2_lt_pow2; lia.
Qed.
Lemma bits_lt a n : (forall i, n <= i -> N.testbit a i = false) -> a < 2 ^ n.
Proof.
  intros H. destruct (N.eq_dec a 0) as [->|Hn]; [apply N.neq_0_lt_0; apply N.pow_nonzero; lia|].
  apply N.log2_lt_pow2; [lia|]. destruct (N.lt_ge_cases (N.log2 a) n) as [|Hge]; [assumption|].
  specialize (H _ Hge). rewrite N.bit_log2 in H by assumption. discriminate.
Qed.
Lemma w64_bit x i : N.testbit (w64 x) i = (i <? 64) && N.testbit x i.
Proof.
  unfold w64. destruct (N.ltb_spec i 64).
  - rewrite N.mod_pow2_bits_low by assumption. reflexivity.
  - rewrite N.mod_pow2_bits_high by assumption. reflexivity.
Qed.
Lemma w64_lt x : w64 x < 2 ^ 64.
Proof. apply N.mod_lt. discriminate. Qed.
Lemma w64_lxor a b : w64 (N.lxor a b) = N.lxor (w64 a) (w64 b).
Proof. apply N.bits_inj. intros i. rewrite N.lxor_spec, !w64_bit, N.lxor_spec. destruct (i <? 64), (N.testbit a i), (N.testbit b i); reflexivity. Qed.
Lemma lxor_lt a b n : a < 2 ^ n -> b < 2 ^ n -> N.lxor a b < 2 ^ n.
Proof. intros Ha Hb. apply bits_lt. intros i Hi. rewrite N.lxor_spec, (bits_above a n), (bits_above b n) by assumption. reflexivity. Qed.

Lemma rotl_xor v b : v < 2 ^ 64 -> b <= 64 -> rotl v b = N.lxor (w64 (N.shiftl v b)) (N.shiftr v (64 - b)).
Proof.
  intros Hv Hb. unfold rotl. symmetry. apply N.lxor_lor. apply N.bits_inj. intros i. rewrite N.bits_0, N.land_spec, w64_bit, N.shiftr_spec by lia.
  destruct (N.ltb_spec i 64); [|reflexivity]. rewrite andb_true_l. destruct (N.lt_ge_cases i b).
  - rewrite N.shiftl_spec_low by assumption. reflexivity.
  - rewrite (bits_above v 64 (i + (64 - b))) by (assumption || lia). apply andb_false_r.
Qed.
Lemma rotl_lt v b : v < 2 ^ 64 -> b <= 64 -> rotl v b < 2 ^ 64.
Proof.
  intros Hv Hb. rewrite rotl_xor by assumption. apply lxor_lt; [apply w64_lt|]. apply bits_lt. intros i Hi. rewrite N.shiftr_spec by lia. apply (bits_above v 64); [assumption|lia].
Qed.
Lemma rotl_lxor v w b : v < 2 ^ 64 -> w < 2 ^ 64 -> b <= 64 -> rotl (N.lxor v w) b = N.lxor (rotl v b) (rotl w b).
Proof.
  intros Hv Hw Hb. rewrite !rotl_xor by (assumption || apply lxor_lt; assumption). rewrite N.shiftl_lxor, N.shiftr_lxor, w64_lxor.
  apply N.bits_inj. intros i. rewrite !N.lxor_spec. destruct (N.testbit _ i), (N.testbit _ i), (N.testbit _ i), (N.testbit _ i); reflexivity.
Qed.

(** ** The transition function is linear *)
Lemma zero_state : is_state zero. Proof. repeat split. Qed.
Lemma xs_state a b : is_state a -> is_state b -> is_state (a ⊕ b).
Proof. intros (?&?&?&?) (?&?&?&?). repeat split; cbn [s0 s1 s2 s3 xor_state]; apply lxor_lt; assumption. Qed.
Lemma T_state m : is_state m -> is_state (T m).
Proof.
  intros (H0&H1&H2&H3). unfold T, next. repeat split; cbn [s0 s1 s2 s3 fst].
  - repeat apply lxor_lt; assumption.
  - repeat apply lxor_lt; assumption.
  - repeat apply lxor_lt; try assumption. apply w64_lt.
  - apply rotl_lt; [apply lxor_lt; assumption|lia].
Qed.

Ltac bits := apply N.bits_inj; intros ?i; rewrite !N.lxor_spec; ring.
Lemma T_xor a b : is_state a -> is_state b -> T (a ⊕ b) = T a ⊕ T b.
Proof.
  intros (H0&H1&H2&H3) (K0&K1&K2&K3). unfold T, next, xor_state. simpl. f_equal.
  - bits.
  - bits.
  - rewrite N.shiftl_lxor, w64_lxor. bits.
  - rewrite <- rotl_lxor by (try lia; apply lxor_lt; assumption). f_equal. bits.
Qed.
Lemma T_zero : T zero = zero. Proof. reflexivity. Qed.

(** A linear function on the states. *)
Record linear (f : state -> state) : Prop := Linear {
  lin_state : forall m, is_state m -> is_state (f m);
  lin_xor : forall a b, is_state a -> is_state b -> f (a ⊕ b) = f a ⊕ f b
}.
Lemma lin_T : linear T. Proof. split; [apply T_state|apply T_xor]. Qed.
Lemma lin_zero f : linear f -> f zero = zero.
Proof. intros [_ L]. pose proof (L zero zero zero_state zero_state) as H. rewrite (xs_nil zero), (xs_nil (f zero)) in H. exact H. Qed.
Lemma lin_comp f g : linear f -> linear g -> linear (fun m => f (g m)).
Proof. intros [F1 F2] [G1 G2]. split; [auto|]. intros a b Ha Hb. rewrite G2, F2 by auto. reflexivity. Qed.
Lemma lin_id : linear (fun m => m). Proof. split; auto. Qed.
Lemma lin_add f g : linear f -> linear g -> linear (fun m => f m ⊕ g m).
Proof. intros [F1 F2] [G1 G2]. split; [intros; apply xs_state; auto|]. intros a b Ha Hb. rewrite G2, F2 by auto. apply xs_swap. Qed.

(** ** A linear function that is zero on the states with one bit is zero *)
Definition put (k : nat) (x : N) : state :=
  match k with 0%nat => St x 0 0 0 | 1%nat => St 0 x 0 0 | 2%nat => St 0 0 x 0 | _ => St 0 0 0 x end.
Lemma put_state k x : x < 2 ^ 64 -> is_state (put k x).
Proof. intros Hx. destruct k as [|[|[|k]]]; repeat split; cbn [s0 s1 s2 s3 put]; try exact Hx; reflexivity. Qed.
Lemma put_xor k x y : put k (N.lxor x y) = put k x ⊕ put k y.
Proof. destruct k as [|[|[|k]]]; reflexivity. Qed.
Lemma put_zero k : put k 0 = zero. Proof. destruct k as [|[|[|k]]]; reflexivity. Qed.
Lemma state_put m : m = put 0 (s0 m) ⊕ put 1 (s1 m) ⊕ (put 2 (s2 m) ⊕ put 3 (s3 m)).
Proof. destruct m. unfold xor_state. simpl. rewrite ?N.lxor_0_r. reflexivity. Qed.

Definition basis : list state := flat_map (fun k => map (fun i => put k (2 ^ N.of_nat i)) (seq 0 64)) (seq 0 4).

Lemma zero_on_words f k : linear f -> (forall i, (i < 64)%nat -> f (put k (2 ^ N.of_nat i)) = zero) ->
  forall n x, (n <= 64)%nat -> x < 2 ^ N.of_nat n -> f (put k x) = zero.
Proof.
  intros L Hb. induction n as [|n IH]; intros x Hn Hx.
  - simpl in Hx. assert (x = 0) as -> by lia. rewrite put_zero. apply lin_zero. exact L.
  - set (e := 2 ^ N.of_nat n) in *.
    assert (2 ^ N.of_nat (S n) = 2 * e) as E by (unfold e; rewrite Nat2N.inj_succ, N.pow_succ_r'; reflexivity). rewrite E in Hx. clear E.
    assert (e <= 2 ^ 63) as He by (unfold e; apply N.pow_le_mono_r; lia). change (2 ^ 63) with 9223372036854775808 in He.
    destruct (N.lt_ge_cases x e) as [Hlt|Hge]; [apply IH; [lia|exact Hlt]|].
    assert (x = N.lxor e (x - e)) as Ex.
    { rewrite N.lxor_comm, <- N.add_nocarry_lxor; [lia|]. apply N.bits_inj. intros i. rewrite N.bits_0, N.land_spec. unfold e at 2. rewrite N.pow2_bits_eqb.
      destruct (N.eqb_spec (N.of_nat n) i) as [<-|]; [|apply andb_false_r]. rewrite (bits_above (x - e) (N.of_nat n)); [reflexivity|fold e; lia|lia]. }
    rewrite Ex, put_xor, (lin_xor f L) by (apply put_state; change (2 ^ 64) with 18446744073709551616; lia).
    rewrite (IH (x - e)) by lia. unfold e. rewrite Hb by lia. reflexivity.
Qed.
Lemma zero_on_basis f : linear f -> Forall (fun e => f e = zero) basis -> forall m, is_state m -> f m = zero.
Proof.
  intros L HB m (H0&H1&H2&H3).
  assert (forall k x, (k < 4)%nat -> x < 2 ^ 64 -> f (put k x) = zero) as HW.
  { intros k x Hk Hx. apply (zero_on_words f k L) with 64%nat; [|lia|exact Hx]. intros i Hi.
    rewrite Forall_forall in HB. apply HB. unfold basis. apply in_flat_map. exists k. split; [apply in_seq; lia|].
    apply in_map_iff. exists i. split; [reflexivity|apply in_seq; lia]. }
  rewrite (state_put m). rewrite !(lin_xor f L); try (apply xs_state); try (apply put_state; assumption).
  rewrite !HW by (assumption || lia). reflexivity.
Qed.

(** ** Polynomials *)
Fixpoint actp (p : positive) (m : state) : state :=
  match p with
  | xH => m
  | xO p => actp p (T m)
  | xI p => m ⊕ actp p (T m)
  end.
Definition act (p : N) (m : state) : state := match p with 0 => zero | Npos p => actp p m end.

Lemma lin_actp p : linear (actp p).
Proof.
  induction p as [p IH|p IH|]; simpl.
  - apply (lin_add (fun m => m) (fun m => actp p (T m))); [apply lin_id|]. apply (lin_comp (actp p) T); [exact IH|apply lin_T].
  - apply (lin_comp (actp p) T); [exact IH|apply lin_T].
  - apply lin_id.
Qed.
Lemma lin_act p : linear (act p).
Proof. destruct p; simpl; [|apply lin_actp]. split; [intros; apply zero_state|reflexivity]. Qed.

Lemma act_double p m : act (N.double p) m = act p (T m).
Proof. destruct p; reflexivity. Qed.
Lemma act_succ_double p m : act (N.succ_double p) m = m ⊕ act p (T m).
Proof. destruct p; simpl; [|reflexivity]. rewrite xs_zero_r. reflexivity. Qed.
Lemma N_bit_ind (P : N -> Prop) : P 0 -> (forall p, P p -> P (N.double p)) -> (forall p, P p -> P (N.succ_double p)) -> forall p, P p.
Proof. exact (fun H0 H1 H2 p => N.binary_ind P H0 H1 H2 p). Qed.

Lemma lxor_dd p q : N.lxor (N.double p) (N.double q) = N.double (N.lxor p q). Proof. destruct p as [|p], q as [|q]; simpl; try reflexivity. Qed.
Lemma lxor_ds p q : N.lxor (N.double p) (N.succ_double q) = N.succ_double (N.lxor p q). Proof. destruct p as [|p], q as [|q]; simpl; try reflexivity. Qed.
Lemma lxor_sd p q : N.lxor (N.succ_double p) (N.double q) = N.succ_double (N.lxor p q). Proof. destruct p as [|p], q as [|q]; simpl; try reflexivity. Qed.
Lemma lxor_ss p q : N.lxor (N.succ_double p) (N.succ_double q) = N.double (N.lxor p q). Proof. destruct p as [|p], q as [|q]; simpl; try reflexivity. Qed.

Lemma act_xor p : forall q m, is_state m -> act (N.lxor p q) m = act p m ⊕ act q m.
Proof.
  induction p as [|p IH|p IH] using N_bit_ind; intros q m Hm.
  - rewrite N.lxor_0_l, xs_zero_l. reflexivity.
  - pattern q. apply N_bit_ind.
    + rewrite N.lxor_0_r, xs_zero_r. reflexivity.
    + intros r _. rewrite lxor_dd, !act_double. apply IH. apply T_state. exact Hm.
    + intros r _. rewrite lxor_ds, act_double, !act_succ_double, IH by (apply T_state; exact Hm). rewrite !xs_assoc. f_equal. apply xs_comm.
  - pattern q. apply N_bit_ind.
    + rewrite N.lxor_0_r, xs_zero_r. reflexivity.
    + intros r _. rewrite lxor_sd, act_double, !act_succ_double, IH by (apply T_state; exact Hm). apply xs_assoc.
    + intros r _. rewrite lxor_ss, act_double, !act_succ_double, IH by (apply T_state; exact Hm).
      rewrite xs_swap, xs_nil, xs_zero_l. reflexivity.
Qed.
Lemma act_T p : forall m, is_state m -> act p (T m) = T (act p m).
Proof.
  induction p as [|p IH|p IH] using N_bit_ind; intros m Hm.
  - reflexivity.
  - rewrite !act_double. apply IH. apply T_state. exact Hm.
  - rewrite !act_succ_double, IH by (apply T_state; exact Hm). rewrite T_xor; [reflexivity|exact Hm|]. apply (lin_state _ (lin_act p)). apply T_state. exact Hm.
Qed.

(** Product of polynomials. *)
Fixpoint mulp (p : positive) (q : N) : N :=
  match p with
  | xH => q
  | xO p => N.double (mulp p q)
  | xI p => N.lxor q (N.double (mulp p q))
  end.
Definition pmul (p q : N) : N := match p with 0 => 0 | Npos p => mulp p q end.
Lemma act_mul p q m : is_state m -> act (pmul p q) m = act p (act q m).
Proof.
  destruct p as [|p]; [reflexivity|]. simpl. revert m. induction p as [p IH|p IH|]; intros m Hm; simpl.
  - rewrite act_xor, act_double, IH, act_T by (exact Hm || apply T_state; exact Hm). reflexivity.
  - rewrite act_double, IH, act_T by (exact Hm || apply T_state; exact Hm). reflexivity.
  - reflexivity.
Qed.

(** The characteristic polynomial. *)
Definition charp : N := 0x10003c03c3f3ecb1904b4edcf26259f850280002bcefd1a5e9d116f2bb0f0f001.

Definition eqb_state (a b : state) : bool := (s0 a =? s0 b) && (s1 a =? s1 b) && (s2 a =? s2 b) && (s3 a =? s3 b).
Lemma eqb_state_ok a b : eqb_state a b = true -> a = b.
Proof.
  unfold eqb_state. rewrite !andb_true_iff. intros [[[H0 H1] H2] H3]. apply N.eqb_eq in H0, H1, H2, H3. destruct a, b. simpl in *. congruence.
Qed.
(** The states that the characteristic polynomial maps to zero (RandomPeriod shows that these are all). *)
Definition K (m : state) : Prop := is_state m /\ act charp m = zero.
Lemma K_T m : K m -> K (T m).
Proof. intros [H1 H2]. split; [apply T_state; exact H1|]. rewrite act_T, H2 by exact H1. reflexivity. Qed.
Lemma K_iter k m : K m -> K (Nat.iter k T m).
Proof. intros Hm. induction k; [exact Hm|]. apply K_T. assumption. Qed.
Lemma K_after k m : K m -> K (after k m).
Proof. unfold after. apply N.iter_invariant. intros x. apply K_T. Qed.

Lemma act_shift k p m : is_state m -> act (N.shiftl p (N.of_nat k)) m = act p (Nat.iter k T m).
Proof.
  revert m. induction k as [|k IH]; intros m Hm.
  - change (N.of_nat 0) with 0. rewrite N.shiftl_0_r. reflexivity.
  - rewrite Nat2N.inj_succ, N.shiftl_succ_r, act_double, IH by (apply T_state; exact Hm). f_equal.
    simpl. clear. induction k as [|k IH]; [reflexivity|]. simpl. rewrite IH. reflexivity.
Qed.
Lemma iter_state k m : is_state m -> is_state (Nat.iter k T m).
Proof. intros Hm. induction k; [exact Hm|]. apply T_state. assumption. Qed.
(** Reduction modulo the characteristic polynomial: a table of x^256, x^257, ... *)
Definition dm (r : N) : N := let d := N.double r in if N.testbit d 256 then N.lxor d charp else d.
Fixpoint tab (n : nat) (r : N) : list N := match n with O => [] | S n => r :: tab n (dm r) end.
Definition r256 : N := N.lxor charp (N.shiftl 1 256).
Definition table : list N := Eval vm_compute in tab 256 r256.
Lemma table_ok : table = tab 256 r256.
Proof. vm_compute. reflexivity. Qed.
(** The sum of the entries chosen by the bits of [p]. *)
Fixpoint comb (l : list N) (p : positive) : option N :=
  match l, p with
  | [], _ => None
  | r :: l, xO p => comb l p
  | r :: l, xI p => match comb l p with Some y => Some (N.lxor r y) | None => None end
  | r :: _, xH => Some r
  end.
Definition rd (q : N) : N :=
  match N.shiftr q 256 with
  | 0 => q
  | Npos hi => match comb table hi with Some r => N.lxor (N.land q (N.ones 256)) r | None => q end
  end.
Lemma act_dm r m : K m -> act (dm r) m = T (act r m).
Proof.
  intros [Hm Hc]. unfold dm. cbv zeta. rewrite <- act_T by exact Hm. destruct (N.testbit (N.double r) 256); [|apply act_double].
  rewrite act_xor, act_double, Hc, xs_zero_r by exact Hm. reflexivity.
Qed.
Lemma act_comb n : forall r p y m m', K m -> act r m = m' -> comb (tab n r) p = Some y -> act y m = actp p m'.
Proof.
  induction n as [|n IH]; intros r p y m m' Hm Hr Hy; [discriminate|]. cbn [tab comb] in Hy.
  assert (act (dm r) m = T m') as Hd by (rewrite act_dm, Hr by exact Hm; reflexivity).
  destruct p as [p|p|].
  - destruct (comb (tab n (dm r)) p) as [z|] eqn:E; [|discriminate]. injection Hy as <-. cbn [actp].
    rewrite act_xor, Hr by (apply Hm). f_equal. exact (IH _ _ _ _ _ Hm Hd E).
  - cbn [actp]. exact (IH _ _ _ _ _ Hm Hd Hy).
  - injection Hy as <-. exact Hr.
Qed.
Lemma act_r256 m : K m -> act r256 m = Nat.iter 256 T m.
Proof.
  intros [Hm Hc]. unfold r256. rewrite act_xor, Hc, xs_zero_l by exact Hm. exact (act_shift 256 1 m Hm).
Qed.
Lemma split_256 q : q = N.lxor (N.land q (N.ones 256)) (N.shiftl (N.shiftr q 256) 256).
Proof.
  apply N.bits_inj. intros i. rewrite N.lxor_spec, N.land_spec. destruct (N.lt_ge_cases i 256) as [H|H].
  - rewrite N.ones_spec_low, N.shiftl_spec_low by assumption. destruct (N.testbit q i); reflexivity.
  - rewrite N.ones_spec_high, N.shiftl_spec_high', N.shiftr_spec' by assumption. replace (i - 256 + 256) with i by lia.
    destruct (N.testbit q i); reflexivity.
Qed.
Lemma act_rd q m : K m -> act (rd q) m = act q m.
Proof.
  intros Hm. unfold rd. pose proof (split_256 q) as Hq. destruct (N.shiftr q 256) as [|hi]; [reflexivity|].
  destruct (comb table hi) as [r|] eqn:E; [|reflexivity]. rewrite Hq at 2. rewrite !act_xor by (apply Hm). f_equal.
  rewrite table_ok in E. rewrite (act_comb 256 r256 hi r m _ Hm (act_r256 m Hm) E).
  symmetry. exact (act_shift 256 (Npos hi) m (proj1 Hm)).
Qed.

(** Squares. *)
Fixpoint spread (p : positive) : positive :=
  match p with xH => xH | xO p => xO (xO (spread p)) | xI p => xI (xO (spread p)) end.
Definition sq (p : N) : N := match p with 0 => 0 | Npos p => rd (Npos (spread p)) end.
Lemma act_spread p : forall m, is_state m -> actp (spread p) m = actp p (actp p m).
Proof.
  assert (forall q m, is_state m -> actp q (T m) = T (actp q m)) as HT by (intros q m Hm; exact (act_T (Npos q) m Hm)).
  induction p as [p IH|p IH|]; intros m Hm; cbn [spread actp]; [| |reflexivity].
  - assert (is_state (T m)) as Hm1 by (apply T_state; exact Hm). assert (is_state (actp p (T m))) as Hm2 by (apply (lin_state _ (lin_actp p)); exact Hm1).
    rewrite IH by (apply T_state; exact Hm1). rewrite T_xor by assumption. rewrite (lin_xor _ (lin_actp p)) by (apply T_state; assumption).
    rewrite (HT p (T m)) by exact Hm1. rewrite xs_assoc. f_equal. rewrite <- xs_assoc, xs_nil, xs_zero_r. reflexivity.
  - rewrite IH by (apply T_state; apply T_state; exact Hm). rewrite (HT p (T m)) by (apply T_state; exact Hm). reflexivity.
Qed.
Lemma act_sq p m : K m -> act (sq p) m = act p (act p m).
Proof. intros Hm. destruct p as [|p]; [reflexivity|]. cbn [sq]. rewrite act_rd by exact Hm. apply act_spread. apply Hm. Qed.

(** x^(2^k) *)
Fixpoint sqs (k : nat) : N := match k with O => 2 | S k => sq (sqs k) end.
Lemma after_add a b m : after (a + b) m = after a (after b m).
Proof. unfold after. apply N.iter_add. Qed.
Lemma after_state k m : is_state m -> is_state (after k m).
Proof. unfold after. apply N.iter_invariant. intros x. apply T_state. Qed.
Lemma after_1 m : after 1 m = T m. Proof. reflexivity. Qed.
Lemma act_sqs k m : K m -> act (sqs k) m = after (2 ^ N.of_nat k) m.
Proof.
  revert m. induction k as [|k IH]; intros m Hm; [reflexivity|]. cbn [sqs]. rewrite act_sq by exact Hm.
  rewrite IH by (rewrite IH by exact Hm; apply K_after; exact Hm). rewrite IH by exact Hm. rewrite <- after_add. f_equal.
  rewrite Nat2N.inj_succ, N.pow_succ_r'. lia.
Qed.

(** ** The jump functions *)
Lemma land_bit j i : N.eqb (N.land j (N.shiftl 1 i)) 0 = negb (N.testbit j i).
Proof.
  rewrite N.shiftl_1_l. destruct (N.testbit j i) eqn:E; simpl.
  - apply N.eqb_neq. intros H. assert (N.testbit (N.land j (2 ^ i)) i = false) as H2 by (rewrite H; apply N.bits_0).
    rewrite N.land_spec, E, N.pow2_bits_true in H2. discriminate.
  - apply N.eqb_eq. apply N.bits_inj. intros k. rewrite N.bits_0, N.land_spec, N.pow2_bits_eqb. destruct (N.eqb_spec i k) as [<-|]; [rewrite E; reflexivity|apply andb_false_r].
Qed.
(** The polynomial of the bits [0 .. n) of a number. *)
Lemma jump_bits j n acc m : is_state m -> is_state acc -> fold_left (jump_bit j) (seq 0 n) (acc, m) = (acc ⊕ act (j mod 2 ^ N.of_nat n) m, Nat.iter n T m).
Proof.
  intros Hm Ha. induction n as [|n IH].
  - simpl. rewrite N.mod_1_r. simpl. rewrite xs_zero_r. reflexivity.
  - rewrite seq_S, fold_left_app, IH. cbn [fold_left jump_bit Nat.add]. rewrite land_bit. f_equal.
    assert (j mod 2 ^ N.of_nat (S n) = N.lxor (j mod 2 ^ N.of_nat n) (if N.testbit j (N.of_nat n) then N.shiftl 1 (N.of_nat n) else 0)) as ->.
    { apply N.bits_inj. intros i. rewrite N.lxor_spec.
      assert (N.testbit (if N.testbit j (N.of_nat n) then N.shiftl 1 (N.of_nat n) else 0) i = (N.of_nat n =? i) && N.testbit j (N.of_nat n)) as ->.
      { destruct (N.testbit j (N.of_nat n)); [|rewrite N.bits_0, andb_false_r; reflexivity]. rewrite N.shiftl_1_l, N.pow2_bits_eqb, andb_true_r. reflexivity. }
      destruct (N.lt_trichotomy i (N.of_nat n)) as [H|[H|H]].
      - rewrite !N.mod_pow2_bits_low by lia. destruct (N.eqb_spec (N.of_nat n) i); [lia|]. destruct (N.testbit j i); reflexivity.
      - subst i. rewrite N.mod_pow2_bits_low, N.mod_pow2_bits_high by lia. rewrite N.eqb_refl. destruct (N.testbit j _); reflexivity.
      - rewrite !N.mod_pow2_bits_high by lia. destruct (N.eqb_spec (N.of_nat n) i); [lia|reflexivity]. }
    rewrite act_xor, xs_assoc by exact Hm. destruct (N.testbit j (N.of_nat n)); cbn [negb]; [|cbn [act]; rewrite xs_zero_r; reflexivity].
    f_equal. rewrite act_shift by exact Hm. reflexivity.
Qed.
Lemma jump_word_ok j acc m : is_state m -> is_state acc -> j < 2 ^ 64 -> jump_word (acc, m) j = (acc ⊕ act j m, Nat.iter 64 T m).
Proof. intros Hm Ha Hj. unfold jump_word. rewrite jump_bits by assumption. rewrite N.mod_small by exact Hj. reflexivity. Qed.

Definition poly (js : list N) : N := fold_right (fun j p => N.lxor j (N.shiftl p 64)) 0 js.
Lemma poly_cons j js : poly (j :: js) = N.lxor j (N.shiftl (poly js) 64). Proof. reflexivity. Qed.
Lemma fold_cons {A B} (f : A -> B -> A) x l a : fold_left f (x :: l) a = fold_left f l (f a x). Proof. reflexivity. Qed.
Lemma jump_words js : forall acc m, is_state m -> is_state acc -> Forall (fun j => j < 2 ^ 64) js ->
  fst (fold_left jump_word js (acc, m)) = acc ⊕ act (poly js) m.
Proof.
  induction js as [|j js IH]; intros acc m Hm Ha Hj.
  - simpl. rewrite xs_zero_r. reflexivity.
  - rewrite fold_cons. inversion Hj; subst. rewrite jump_word_ok by assumption. rewrite IH; [|apply iter_state; exact Hm|apply xs_state; [exact Ha|apply (lin_state _ (lin_act j)); exact Hm]|assumption].
    rewrite poly_cons, act_xor by exact Hm. rewrite xs_assoc. f_equal.
    pose proof (act_shift 64 (poly js) m Hm) as H. change (N.of_nat 64) with 64 in H. rewrite H. reflexivity.
Qed.
Lemma jump_impl_ok js m : is_state m -> Forall (fun j => j < 2 ^ 64) js -> jump_impl js m = act (poly js) m.
Proof. intros Hm Hj. unfold jump_impl. rewrite jump_words by (assumption || apply zero_state). apply xs_zero_l. Qed.

Lemma jump_polys :
  (poly [0x180ec6d33cfd0aba; 0xd5a61266f0c9392c; 0xa9582618e03fc9aa; 0x39abdc4529b1661c] =? sqs 128) = true /\
  (poly [0x76e15d3efefdcbbf; 0xc5004e441c522fb3; 0x77710069854ee241; 0x39109bb02acbe635] =? sqs 192) = true.
Proof. split; vm_compute; reflexivity. Qed.
Lemma jump_poly : poly [0x180ec6d33cfd0aba; 0xd5a61266f0c9392c; 0xa9582618e03fc9aa; 0x39abdc4529b1661c] = sqs 128.
Proof. apply N.eqb_eq. exact (proj1 jump_polys). Qed.
Lemma long_jump_poly : poly [0x76e15d3efefdcbbf; 0xc5004e441c522fb3; 0x77710069854ee241; 0x39109bb02acbe635] = sqs 192.
Proof. apply N.eqb_eq. exact (proj2 jump_polys). Qed.
