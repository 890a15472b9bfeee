(** * The period of the random number generator. *)

From Coq Require Import NArith ZArith Znumtheory List Lia Bool.
From Verif Require Import RandomModel RandomSpec RandomProofs PrimeLib.
Import ListNotations.
Local Open Scope N_scope.

(** ** The inverse of the transition function *)
Definition prev (m : state) : state :=
  let m3 := rotl (s3 m) 19 in
  let p0 := N.lxor (s0 m) m3 in
  let y := N.lxor (s1 m) (s2 m) in
  let p1 := N.lxor (N.lxor y (w64 (N.shiftl y 17))) (N.lxor (w64 (N.shiftl y 34)) (w64 (N.shiftl y 51))) in
  let m2 := N.lxor (s1 m) p1 in
  St p0 p1 (N.lxor m2 p0) (N.lxor m3 p1).

Lemma lin_prev : linear prev.
Proof.
  split.
  - intros m (H0&H1&H2&H3). unfold prev. assert (rotl (s3 m) 19 < 2 ^ 64) as HR by (apply rotl_lt; [exact H3|lia]).
    repeat split; cbn [s0 s1 s2 s3]; repeat apply lxor_lt; try assumption; apply w64_lt.
  - intros a b (H0&H1&H2&H3) (K0&K1&K2&K3). unfold prev, xor_state. cbn [s0 s1 s2 s3].
    assert (N.lxor (N.lxor (s1 a) (s1 b)) (N.lxor (s2 a) (s2 b)) = N.lxor (N.lxor (s1 a) (s2 a)) (N.lxor (s1 b) (s2 b))) as -> by bits.
    rewrite rotl_lxor by (assumption || lia). rewrite !N.shiftl_lxor, !w64_lxor. f_equal; bits.
Qed.

Lemma id_on_basis f : linear f -> forallb (fun e => eqb_state (f e) e) basis = true -> forall m, is_state m -> f m = m.
Proof.
  intros L HB m Hm. apply xs_cancel. apply (zero_on_basis (fun m => f m ⊕ m)); [|clear m Hm|exact Hm].
  - apply (lin_add f (fun m => m)); [exact L|apply lin_id].
  - apply Forall_forall. intros e He. rewrite forallb_forall in HB. rewrite (eqb_state_ok _ _ (HB e He)). apply xs_nil.
Qed.
Lemma prev_T m : is_state m -> prev (T m) = m.
Proof. apply (id_on_basis (fun m => prev (T m))); [apply lin_comp; [apply lin_prev|apply lin_T]|vm_compute; reflexivity]. Qed.
Lemma T_prev m : is_state m -> T (prev m) = m.
Proof. apply (id_on_basis (fun m => T (prev m))); [apply (lin_comp T prev); [apply lin_T|apply lin_prev]|vm_compute; reflexivity]. Qed.
Lemma T_inj a b : is_state a -> is_state b -> T a = T b -> a = b.
Proof. intros Ha Hb E. rewrite <- (prev_T a), <- (prev_T b), E by assumption. reflexivity. Qed.
Lemma after_inj k a b : is_state a -> is_state b -> after k a = after k b -> a = b.
Proof.
  intros Ha Hb. induction k as [|k IH] using N.peano_ind; [auto|]. intros E. apply IH. unfold after in *. rewrite !N.iter_succ in E.
  apply T_inj; [apply (after_state k a Ha)|apply (after_state k b Hb)|exact E].
Qed.

(** ** The period divides 2^256 - 1 *)
Definition period : N := 2 ^ 256 - 1.
Lemma sqs_256 : (sqs 256 =? 2) = true.
Proof. vm_compute. reflexivity. Qed.
Lemma K_period m : K m -> after period m = m.
Proof.
  intros Hm. pose proof (proj1 Hm) as Hs. apply T_inj; [apply after_state; exact Hs|exact Hs|].
  change (T (after period m)) with (after 1 (after period m)). rewrite <- after_add. change (1 + period) with (2 ^ N.of_nat 256).
  rewrite <- act_sqs by exact Hm. rewrite (proj1 (N.eqb_eq _ _) sqs_256). reflexivity.
Qed.

(** ** ... and is not less *)

(** Powers of x. *)
Fixpoint ppow (k : positive) : N :=
  match k with
  | xH => 2
  | xO k => sq (ppow k)
  | xI k => dm (sq (ppow k))
  end.
Lemma act_ppow k m : K m -> act (ppow k) m = after (Npos k) m.
Proof.
  revert m. induction k as [k IH|k IH|]; intros m Hm; cbn [ppow].
  - rewrite act_dm, act_sq by exact Hm. rewrite !IH by (try rewrite IH; try apply K_after; exact Hm).
    rewrite <- after_1, <- !after_add. f_equal. lia.
  - rewrite act_sq by exact Hm. rewrite !IH by (try rewrite IH; try apply K_after; exact Hm). rewrite <- after_add. f_equal. lia.
  - reflexivity.
Qed.

(** The prime factors of 2^256 - 1. *)
Lemma prime_3 : nprime 3. Proof. apply (trial 3 10); [lia|vm_compute; reflexivity]. Qed.
Lemma prime_5 : nprime 5. Proof. apply (trial 5 10); [lia|vm_compute; reflexivity]. Qed.
Lemma prime_17 : nprime 17. Proof. apply (trial 17 10); [lia|vm_compute; reflexivity]. Qed.
Lemma prime_257 : nprime 257. Proof. apply (trial 257 100); [lia|vm_compute; reflexivity]. Qed.
Lemma prime_641 : nprime 641. Proof. apply (trial 641 100); [lia|vm_compute; reflexivity]. Qed.
Lemma prime_65537 : nprime 65537. Proof. apply (trial 65537 300); [lia|vm_compute; reflexivity]. Qed.
Lemma prime_274177 : nprime 274177. Proof. apply (trial 274177 600); [lia|vm_compute; reflexivity]. Qed.
Lemma prime_6700417 : nprime 6700417. Proof. apply (trial 6700417 3000); [lia|vm_compute; reflexivity]. Qed.
Lemma prime_2998279 : nprime 2998279. Proof. apply (trial 2998279 3000); [lia|vm_compute; reflexivity]. Qed.
Lemma prime_373 : nprime 373. Proof. apply (trial 373 3000); [lia|vm_compute; reflexivity]. Qed.
Lemma prime_1896229 : nprime 1896229. Proof. apply (trial 1896229 3000); [lia|vm_compute; reflexivity]. Qed.
Lemma prime_6939437 : nprime 6939437. Proof. apply (trial 6939437 3000); [lia|vm_compute; reflexivity]. Qed.
Lemma prime_67280421310721 : nprime 67280421310721.
Proof. apply (pocklington _ 3 60160 [2998279; 373]); [repeat apply Forall_cons; [apply prime_2998279|apply prime_373|apply Forall_nil]|lia|vm_compute; reflexivity]. Qed.
Lemma prime_18533742247 : nprime 18533742247.
Proof. apply (pocklington _ 2 9774 [1896229]); [apply Forall_cons; [apply prime_1896229|apply Forall_nil]|lia|vm_compute; reflexivity]. Qed.
Lemma prime_116503103764643 : nprime 116503103764643.
Proof. apply (pocklington _ 2 6286 [18533742247]); [apply Forall_cons; [apply prime_18533742247|apply Forall_nil]|lia|vm_compute; reflexivity]. Qed.
Lemma prime_59649589127497217 : nprime 59649589127497217.
Proof. apply (pocklington _ 3 512 [116503103764643]); [apply Forall_cons; [apply prime_116503103764643|apply Forall_nil]|lia|vm_compute; reflexivity]. Qed.
Lemma prime_55515497 : nprime 55515497.
Proof. apply (pocklington _ 2 8 [6939437]); [apply Forall_cons; [apply prime_6939437|apply Forall_nil]|lia|vm_compute; reflexivity]. Qed.
Lemma prime_733803839347 : nprime 733803839347.
Proof. apply (pocklington _ 2 13218 [55515497]); [apply Forall_cons; [apply prime_55515497|apply Forall_nil]|lia|vm_compute; reflexivity]. Qed.
Lemma prime_5704689200685129054721 : nprime 5704689200685129054721.
Proof. apply (pocklington _ 3 7774133760 [733803839347]); [apply Forall_cons; [apply prime_733803839347|apply Forall_nil]|lia|vm_compute; reflexivity]. Qed.

(** Each prime factor [q] with the inverse of x^(period / q) + 1 modulo the characteristic polynomial. *)
Definition factors : list (N * N) := [
(3, 0x54d6a48aae687fb68b7f13ce6607e276afab085596734aa97762f281b25ed783); 
(5, 0x9b17f5767b72e1a3c673d4c3e369b20235e972559753b37fdedc95dc103781f); 
(17, 0xf4646ef27133b2d46393a4c40448d75b8f3adcab0a20793ef8bb26f5b81e7ecf); 
(257, 0x618e9a9a97b4105e9870464ee696824b10a336ec58f59159b1165cabfe23cd76); 
(641, 0x56ced9120f236c15fdd49ed161d46abc0269afa58693de573c5dcc0645c4b0ff); 
(65537, 0x5b7382b05dc5a20686e618650a39fab806017ce589bb2d98cf9b5a05139e793f); 
(6700417, 0x1c10854fe79f6066b6b1fe5c68be2282e701b5777ef01c8fd5b0ea5458d18c36); 
(274177, 0x24d5461cfd63732f63b6b60adc840b312db07c0c8c7b46872d3955d70f9e6ac5); 
(67280421310721, 0xc3bc6f4888606c0bfb4a6ce96aa43d28506b49c1c962aba2928641dd24af8cf8); 
(59649589127497217, 0x2b0b5d0e0d5dcbfd343a0c7c13920e58856efc82f8b6f3e99a6368bb225afce6); 
(5704689200685129054721, 0xca8fcba3c0dd08871d4e3f7290e3e7fb8436109b90a55fd4bc6fe9d31b611e5)].

Lemma factors_prime : Forall nprime (map fst factors).
Proof.
  unfold factors. cbn [map fst]. repeat apply Forall_cons; [apply prime_3|apply prime_5|apply prime_17|apply prime_257|apply prime_641|apply prime_65537|apply prime_6700417|
    apply prime_274177|apply prime_67280421310721|apply prime_59649589127497217|apply prime_5704689200685129054721|apply Forall_nil].
Qed.
Lemma factors_prod : prod (map fst factors) = period.
Proof. vm_compute. reflexivity. Qed.
Definition check (qr : N * N) : bool :=
  match period / fst qr with
  | 0 => false
  | Npos k => rd (pmul (snd qr) (N.lxor (ppow k) 1)) =? 1
  end.
Lemma factors_check : forallb check factors = true.
Proof. vm_compute. reflexivity. Qed.

Lemma after_iter k m : after k m = N.iter k T m. Proof. reflexivity. Qed.
Lemma K_exact m : K m -> m <> zero -> forall d, 0 < d < period -> after d m <> m.
Proof.
  intros Hm Hz d Hd. rewrite after_iter. revert d Hd. apply exact_period; [rewrite <- after_iter; apply K_period; exact Hm|]. intros q Hq Hd E.
  assert (In q (map fst factors)) as Hin by (apply prime_of_prod; [exact Hq|rewrite factors_prod; exact Hd|apply factors_prime]).
  apply in_map_iff in Hin as ([q' r] & <- & Hin). pose proof factors_check as Hc. rewrite forallb_forall in Hc. specialize (Hc _ Hin).
  unfold check in Hc. cbn [fst snd] in *. rewrite <- after_iter in E.
  destruct (period / q') as [|k]; [discriminate|]. apply N.eqb_eq in Hc. apply Hz.
  assert (act 1 m = m) as H1 by reflexivity. pose proof (proj1 Hm) as Hs.
  rewrite <- H1, <- Hc, act_rd, act_mul, act_xor, act_ppow, E by (exact Hm || exact Hs). rewrite H1, xs_nil. apply lin_zero. apply lin_act.
Qed.

(** ** One orbit, hence (by counting) all states but zero form it *)
Definition e0 : state := put 0 1.
Lemma e0_zero : eqb_state (act charp e0) zero = true.
Proof. vm_compute. reflexivity. Qed.
Lemma e0_K : K e0.
Proof. split; [apply put_state; reflexivity|apply eqb_state_ok; exact e0_zero]. Qed.
Lemma e0_nz : e0 <> zero. Proof. discriminate. Qed.
Lemma e0_distinct x y : x < period -> y < period -> after x e0 = after y e0 -> x = y.
Proof.
  assert (forall x y, x < y -> y < period -> after x e0 <> after y e0) as H.
  { intros a b Hab Hb E. apply (K_exact e0 e0_K e0_nz (b - a)); [lia|].
    apply (after_inj a); [apply after_state; apply e0_K|apply e0_K|]. rewrite <- after_add. replace (a + (b - a)) with b by lia. symmetry. exact E. }
  intros Hx Hy E. destruct (N.lt_trichotomy x y) as [Hl|[He|Hg]]; [|exact He|].
  - contradiction (H x y Hl Hy).
  - contradiction (H y x Hg Hx). symmetry. exact E.
Qed.

(** An injection of [0, n) into itself is onto. *)
Lemma pigeon n : forall f : N -> N, (forall i, i < n -> f i < n) -> (forall i j, i < n -> j < n -> f i = f j -> i = j) ->
  forall y, y < n -> exists i, i < n /\ f i = y.
Proof.
  induction n as [|n IH] using N.peano_ind; intros f Hb Hi y Hy; [lia|].
  set (a := f n). set (g := fun i => if f i =? n then a else f i).
  assert (forall i, i < n -> f i <> a) as Hna.
  { intros i Hin E. assert (i = n) by (apply Hi; [lia|lia|exact E]). lia. }
  assert (a < N.succ n) as Ha by (apply Hb; lia).
  assert (forall i, i < n -> g i < n) as Hg1.
  { intros i Hin. unfold g. pose proof (Hb i ltac:(lia)). pose proof (Hna i Hin). destruct (N.eqb_spec (f i) n); lia. }
  assert (forall i j, i < n -> j < n -> g i = g j -> i = j) as Hg2.
  { intros i j Hin Hjn. unfold g. pose proof (Hna i Hin). pose proof (Hna j Hjn).
    destruct (N.eqb_spec (f i) n), (N.eqb_spec (f j) n); intros E; try congruence; apply Hi; try lia; congruence. }
  pose proof (IH g Hg1 Hg2) as IH'.
  destruct (N.eq_dec y a) as [->|Hya]; [exists n; split; [lia|reflexivity]|].
  destruct (N.eq_dec y n) as [->|Hyn].
  - destruct (IH' a ltac:(lia)) as (i & Hin & E). exists i. split; [lia|]. unfold g in E.
    destruct (N.eqb_spec (f i) n); [assumption|]. contradiction (Hna i Hin).
  - destruct (IH' y ltac:(lia)) as (i & Hin & E). exists i. split; [lia|]. unfold g in E. destruct (N.eqb_spec (f i) n); congruence.
Qed.

(** A state as a number. *)
Definition code (m : state) : N := s0 m + 2 ^ 64 * (s1 m + 2 ^ 64 * (s2 m + 2 ^ 64 * s3 m)).
Lemma code_lt m : is_state m -> code m < 2 ^ 256.
Proof.
  intros (H0&H1&H2&H3). unfold code. change (2 ^ 256) with (2 ^ 64 * (2 ^ 64 * (2 ^ 64 * 2 ^ 64))).
  assert (forall w v x y, y < w -> x < v -> y + w * x < w * v) as U by (intros; nia). auto.
Qed.
Lemma code_inj a b : is_state a -> is_state b -> code a = code b -> a = b.
Proof.
  intros (H0&H1&H2&H3) (K0&K1&K2&K3). unfold code. destruct a as [a0 a1 a2 a3], b as [b0 b1 b2 b3]. cbn [s0 s1 s2 s3] in *. intros E.
  assert (forall w x y x' y', y < w -> y' < w -> y + w * x = y' + w * x' -> x = x' /\ y = y') as U.
  { intros w x y x' y' Hy Hy' E'. apply (N.div_mod_unique w x x' y y' Hy Hy'). lia. }
  destruct (U _ _ _ _ _ H0 K0 E) as [E1 ->]. destruct (U _ _ _ _ _ H1 K1 E1) as [E2 ->]. destruct (U _ _ _ _ _ H2 K2 E2) as [-> ->]. reflexivity.
Qed.
Lemma code_zero m : is_state m -> code m = 0 -> m = zero.
Proof. intros Hm E. apply code_inj; [exact Hm|apply zero_state|exact E]. Qed.
Lemma after_zero k : after k zero = zero.
Proof. induction k as [|k IH] using N.peano_ind; [reflexivity|]. unfold after in *. rewrite N.iter_succ, IH. reflexivity. Qed.
Lemma after_nz k m : is_state m -> m <> zero -> after k m <> zero.
Proof. intros Hm Hz E. apply Hz. apply (after_inj k); [exact Hm|apply zero_state|]. rewrite E, after_zero. reflexivity. Qed.

Lemma one_orbit m : is_state m -> m <> zero -> exists k, k < period /\ after k e0 = m.
Proof.
  intros Hm Hz. pose proof (proj1 e0_K) as He.
  assert (forall i, is_state (after i e0)) as Hs by (intros; apply after_state; exact He).
  assert (forall i, code (after i e0) <> 0) as Hn.
  { intros i E. apply (after_nz i e0 He e0_nz). apply code_zero; [apply Hs|exact E]. }
  assert (2 ^ 256 = N.succ period) as Ep by reflexivity.
  destruct (pigeon period (fun k => code (after k e0) - 1)) with (y := code m - 1) as (k & Hk & E).
  - intros i _. pose proof (code_lt _ (Hs i)) as Hc. pose proof (Hn i). rewrite Ep in Hc. lia.
  - intros i j Hi Hj E. apply e0_distinct; [exact Hi|exact Hj|]. apply code_inj; [apply Hs|apply Hs|]. pose proof (Hn i). pose proof (Hn j). lia.
  - pose proof (code_lt m Hm) as Hc. rewrite Ep in Hc. assert (code m <> 0) by (intros E; apply Hz; apply code_zero; assumption). lia.
  - exists k. split; [exact Hk|]. apply code_inj; [apply Hs|exact Hm|]. pose proof (Hn k).
    assert (code m <> 0) by (intros E'; apply Hz; apply code_zero; assumption). lia.
Qed.

Lemma K_all m : is_state m -> K m.
Proof.
  intros Hm. destruct (N.eq_dec (code m) 0) as [E|E].
  - rewrite (code_zero m Hm E). split; [apply zero_state|]. apply lin_zero. apply lin_act.
  - destruct (one_orbit m Hm) as (k & _ & <-); [intros ->; apply E; reflexivity|]. apply K_after. apply e0_K.
Qed.
Lemma after_period m : is_state m -> after period m = m.
Proof. intros Hm. apply K_period. apply K_all. exact Hm. Qed.
Lemma after_exact m : is_state m -> m <> zero -> forall d, 0 < d < period -> after d m <> m.
Proof. intros Hm. apply K_exact. apply K_all. exact Hm. Qed.
