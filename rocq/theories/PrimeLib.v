(** * Exact periods and primality certificates (used for the period of the generator). *)

From Coq Require Import NArith ZArith Znumtheory List Lia Bool.
Import ListNotations.
Local Open Scope N_scope.

(** ** Primes *)
Lemma prime_divisor m : (1 < m)%Z -> exists p, prime p /\ (p | m)%Z.
Proof.
  intros Hm. assert (0 <= m)%Z as H0 by lia. revert Hm. pattern m. apply Z_lt_induction; [|exact H0]. clear m H0. intros m IH Hm.
  destruct (prime_dec m) as [Hp|Hn]; [exists m; split; [exact Hp|apply Z.divide_refl]|].
  destruct (not_prime_divide m Hm Hn) as (d & Hd & Hdm). destruct (IH d) as (p & Hp & Hpd); [lia|lia|].
  exists p. split; [exact Hp|]. eapply Z.divide_trans; eassumption.
Qed.

Definition prod (l : list N) : N := fold_right N.mul 1 l.
Definition nprime (q : N) : Prop := prime (Z.of_N q).

Lemma ndiv_z a b : (a | b) <-> (Z.of_N a | Z.of_N b)%Z.
Proof.
  split; intros [c Hc].
  - exists (Z.of_N c). rewrite <- N2Z.inj_mul. f_equal. exact Hc.
  - destruct (N.eq_dec a 0) as [->|Ha].
    + simpl in Hc. exists 0. lia.
    + exists (Z.to_N c). apply N2Z.inj. rewrite N2Z.inj_mul. destruct (Z.le_gt_cases 0 c).
      * rewrite Z2N.id by assumption. exact Hc.
      * assert (Z.of_N b = 0)%Z by nia. nia.
Qed.
Lemma prime_of_prod p l : nprime p -> (p | prod l) -> Forall nprime l -> In p l.
Proof.
  intros Hp. induction l as [|q l IH]; intros Hd Hl.
  - exfalso. simpl in Hd. apply ndiv_z in Hd. simpl in Hd. apply Z.divide_1_r_nonneg in Hd; [|lia]. unfold nprime in Hp. rewrite Hd in Hp. apply not_prime_1. exact Hp.
  - inversion Hl; subst. simpl in Hd. apply ndiv_z in Hd. rewrite N2Z.inj_mul in Hd. apply prime_mult in Hd; [|exact Hp]. destruct Hd as [Hd|Hd].
    + left. apply prime_div_prime in Hd; [|exact Hp|assumption]. apply N2Z.inj. symmetry. exact Hd.
    + right. apply IH; [|assumption]. apply ndiv_z. exact Hd.
Qed.
Lemma nprime_divisor m : 1 < m -> exists p, nprime p /\ (p | m).
Proof.
  intros Hm. destruct (prime_divisor (Z.of_N m)) as (p & Hp & Hd); [lia|]. exists (Z.to_N p). pose proof (prime_ge_2 p Hp).
  unfold nprime. rewrite Z2N.id by lia. split; [exact Hp|]. apply ndiv_z. rewrite Z2N.id by lia. exact Hd.
Qed.

(** ** Exact periods *)
Section Period.
Context {A : Type} (f : A -> A) (x : A).
Notation it k := (N.iter k f x).

Lemma it_add a b : it b = x -> it (a + b) = it a.
Proof. intros H. rewrite N.iter_add, H. reflexivity. Qed.
Lemma it_mul k a : it a = x -> it (k * a) = x.
Proof. intros H. induction k as [|k IH] using N.peano_ind; [reflexivity|]. rewrite N.mul_succ_l, it_add by exact H. exact IH. Qed.
Lemma it_gcd a b : 0 < a -> it a = x -> it b = x -> it (N.gcd a b) = x.
Proof.
  intros Ha H1 H2. destruct (N.gcd_bezout_pos a b Ha) as (u & v & E).
  rewrite <- (it_add (N.gcd a b) (v * b)) by (apply it_mul; exact H2). rewrite <- E. apply it_mul. exact H1.
Qed.
Lemma exact_period n : it n = x -> (forall q, nprime q -> (q | n) -> it (n / q) <> x) -> forall d, 0 < d < n -> it d <> x.
Proof.
  intros Hn Hq d [Hd0 Hd] E. pose proof (it_gcd d n Hd0 E Hn) as Hg. set (g := N.gcd d n) in *.
  pose proof (N.gcd_divide_l d n) as Dl. pose proof (N.gcd_divide_r d n) as [c Hc]. fold g in Dl, Hc.
  assert (g <= d) as Hgd by (apply N.divide_pos_le; [exact Hd0|exact Dl]).
  assert (1 < c) as Hc1 by (destruct (N.le_gt_cases c 1); [nia|assumption]).
  destruct (nprime_divisor c Hc1) as (q & Hqp & (e & He)).
  apply (Hq q Hqp).
  - exists (e * g). rewrite Hc, He. lia.
  - assert (q <> 0) as Hq0 by (intros ->; unfold nprime in Hqp; pose proof (prime_ge_2 _ Hqp); simpl in *; lia).
    assert (n / q = e * g) as ->. { rewrite Hc, He. replace (e * q * g) with (e * g * q) by lia. apply N.div_mul. exact Hq0. }
    apply it_mul. exact Hg.
Qed.
End Period.

(** ** Trial division *)
Fixpoint no_divisor (fuel : nat) (d n : N) : bool :=
  if n <? d * d then true
  else match fuel with O => false | S fuel => negb (n mod d =? 0) && no_divisor fuel (d + 1) n end.
Lemma nprime_intro n : 1 < n -> (forall d, 1 < d -> d * d <= n -> ~ (d | n)) -> nprime n.
Proof.
  intros Hn H. unfold nprime. destruct (prime_dec (Z.of_N n)) as [|Hnp]; [assumption|]. exfalso.
  destruct (not_prime_divide (Z.of_N n)) as (d & Hd & [c Hc]); [lia|exact Hnp|].
  assert (1 < c)%Z as Hc1 by nia.
  destruct (Z.le_gt_cases d c) as [Hle|Hgt].
  - apply (H (Z.to_N d)); [lia|nia|]. apply ndiv_z. rewrite Z2N.id by lia. exists c. exact Hc.
  - apply (H (Z.to_N c)); [lia|nia|]. apply ndiv_z. rewrite Z2N.id by lia. exists d. lia.
Qed.
Lemma no_divisor_ok fuel : forall d n, 0 < d -> no_divisor fuel d n = true -> forall e, d <= e -> e * e <= n -> ~ (e | n).
Proof.
  induction fuel as [|fuel IH]; intros d n Hd0 H e He Hee Hdiv; simpl in H; destruct (N.ltb_spec n (d * d)); try nia; try discriminate.
  apply andb_true_iff in H as [H1 H2]. destruct (N.eq_dec e d) as [->|Hne].
  - apply N.mod_divide in Hdiv; [|lia]. rewrite Hdiv in H1. discriminate.
  - apply (IH (d + 1) n) with e; try assumption; lia.
Qed.
Lemma trial n fuel : 1 < n -> no_divisor fuel 2 n = true -> nprime n.
Proof. intros Hn H. apply nprime_intro; [exact Hn|]. intros d Hd Hdd. apply (no_divisor_ok fuel 2 n); try assumption; lia. Qed.

(** ** Pocklington's criterion *)
Definition mulmod (n a x : N) : N := x * a mod n.
Lemma iter_pow n a k : n <> 0 -> N.iter k (mulmod n a) (1 mod n) = a ^ k mod n.
Proof.
  intros Hn. induction k as [|k IH] using N.peano_ind; [reflexivity|]. rewrite N.iter_succ, IH, N.pow_succ_r'. unfold mulmod.
  rewrite N.mul_mod_idemp_l by exact Hn. f_equal. lia.
Qed.

(** Fast exponentiation. *)
Fixpoint powmodp (n a : N) (k : positive) : N :=
  match k with
  | xH => a mod n
  | xO k => let r := powmodp n a k in r * r mod n
  | xI k => let r := powmodp n a k in (r * r mod n) * a mod n
  end.
Definition powmod (n a k : N) : N := match k with 0 => 1 mod n | Npos k => powmodp n a k end.
Lemma powmod_ok n a k : n <> 0 -> powmod n a k = a ^ k mod n.
Proof.
  intros Hn. destruct k as [|k]; [reflexivity|]. simpl powmod. induction k as [k IH|k IH|]; cbn [powmodp].
  - rewrite IH. rewrite <- N.mul_mod by exact Hn. rewrite N.mul_mod_idemp_l by exact Hn.
    f_equal. replace (N.pos k~1) with (N.pos k + N.pos k + 1) by lia. rewrite !N.pow_add_r, N.pow_1_r. reflexivity.
  - rewrite IH. rewrite <- N.mul_mod by exact Hn. f_equal. replace (N.pos k~0) with (N.pos k + N.pos k) by lia. rewrite N.pow_add_r. reflexivity.
  - rewrite N.pow_1_r. reflexivity.
Qed.

(** [n - 1 = F * R]; [qs] are the prime factors of [F], with multiplicity. *)
Definition pock (n a R : N) (qs : list N) : bool :=
  let F := prod qs in
  (n =? F * R + 1) && (n <? F * F) && (powmod n a (n - 1) =? 1) &&
  forallb (fun q => N.gcd (powmod n a ((n - 1) / q) - 1) n =? 1) qs.

Lemma pow_mod_divisor n p a k : p <> 0 -> (p | n) -> (a ^ k mod n) mod p = a ^ k mod p.
Proof.
  intros Hp [c Hc]. destruct (N.eq_dec n 0) as [->|Hn]. { destruct (a ^ k); reflexivity. }
  rewrite (N.div_mod (a ^ k) n Hn) at 2. rewrite Hc at 2. rewrite <- N.mul_assoc.
  rewrite N.add_comm. replace (c * (p * (a ^ k / n))) with (c * (a ^ k / n) * p) by lia. rewrite N.mod_add by exact Hp. reflexivity.
Qed.

Lemma pocklington n a R qs : Forall nprime qs -> 1 < n -> pock n a R qs = true -> nprime n.
Proof.
  intros Hq Hn H. unfold pock in H. set (F := prod qs) in *. rewrite !andb_true_iff in H. destruct H as [[[H1 H2] H3] H4].
  apply N.eqb_eq in H1, H3. apply N.ltb_lt in H2. rewrite forallb_forall in H4. rewrite powmod_ok in H3 by lia.
  apply nprime_intro; [exact Hn|]. intros p Hp Hpp Hpn.
  assert (p < F) as HpF by nia.
  set (b := a ^ R). set (f := mulmod p b).
  assert (forall k, N.iter k f (1 mod p) = a ^ (R * k) mod p) as Hit.
  { intros k. unfold f. rewrite iter_pow by lia. unfold b. rewrite <- N.pow_mul_r. reflexivity. }
  assert (1 mod p = 1) as E1 by (apply N.mod_small; exact Hp).
  assert (N.iter F f (1 mod p) = 1 mod p) as HF.
  { rewrite Hit. replace (R * F) with (n - 1) by lia. rewrite <- (pow_mod_divisor n) by (lia || assumption). rewrite H3. reflexivity. }
  assert (forall d, 0 < d < F -> N.iter d f (1 mod p) <> 1 mod p) as Hex.
  { apply exact_period; [exact HF|]. intros q Hqp Hqd E. assert (In q qs) as Hin by (apply prime_of_prod; assumption).
    specialize (H4 q Hin). apply N.eqb_eq in H4. rewrite powmod_ok in H4 by lia. rewrite Hit in E.
    assert (q <> 0) as Hq0. { intros ->. unfold nprime in Hqp. pose proof (prime_ge_2 _ Hqp). simpl in *. lia. }
    destruct Hqd as [c Hc]. assert (F / q = c) as Ec by (rewrite Hc; apply N.div_mul; exact Hq0).
    assert ((n - 1) / q = R * (F / q)) as Enq. { rewrite Ec. replace (n - 1) with (R * c * q) by lia. apply N.div_mul. exact Hq0. }
    rewrite Enq in H4. rewrite <- (pow_mod_divisor n) in E by (lia || assumption). set (v := a ^ (R * (F / q)) mod n) in *.
    assert (p | v - 1) as Hpv.
    { rewrite E1 in E. exists (v / p). pose proof (N.div_mod v p ltac:(lia)) as Hdm. rewrite E in Hdm. generalize dependent (v / p). intros k Hdm. rewrite (N.mul_comm k p). clear - Hdm. lia. }
    pose proof (N.gcd_greatest _ _ _ Hpv Hpn) as Hg. rewrite H4 in Hg. destruct Hg as [e He]. symmetry in He. apply N.eq_mul_1 in He. clear - He Hp. lia. }
  (* F different residues below p *)
  assert (forall i j, i < j < F -> N.iter i f (1 mod p) <> N.iter j f (1 mod p)) as Hdist.
  { intros i j [Hij Hj] E. apply (Hex (j - i)); [lia|].
    rewrite <- HF at 1. rewrite <- N.iter_add. replace (j - i + F) with (F - i + j) by lia. rewrite N.iter_add, <- E, <- N.iter_add.
    replace (F - i + i) with F by lia. exact HF. }
  assert (N.to_nat F <= N.to_nat p)%nat as Hle; [|lia].
  set (l := map (fun i => N.to_nat (N.iter (N.of_nat i) f (1 mod p))) (seq 0 (N.to_nat F))).
  replace (N.to_nat F) with (length l) by (unfold l; rewrite map_length, seq_length; reflexivity).
  replace (N.to_nat p) with (length (seq 0 (N.to_nat p))) at 1 by apply seq_length. apply NoDup_incl_length.
  - unfold l. clear l. assert (forall k m, (k + m <= N.to_nat F)%nat -> NoDup (map (fun i => N.to_nat (N.iter (N.of_nat i) f (1 mod p))) (seq k m))) as Hnd.
    { intros k m. revert k. induction m as [|m IH]; intros k Hk; simpl; constructor.
      - rewrite in_map_iff. intros (j & Ej & Hj). apply in_seq in Hj. apply N2Nat.inj in Ej. apply (Hdist (N.of_nat k) (N.of_nat j)); [lia|]. symmetry. exact Ej.
      - apply IH. lia. }
    apply Hnd. lia.
  - intros v Hv. unfold l in Hv. apply in_map_iff in Hv as (i & <- & _). apply in_seq. split; [lia|]. rewrite Hit.
    pose proof (N.mod_lt (a ^ (R * N.of_nat i)) p ltac:(lia)). lia.
Qed.
