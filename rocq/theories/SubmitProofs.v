(** * Proofs about SubmitModel. *)

From stdpp Require Import prelude list relations.
From Coq Require Import Lia.
From Verif Require Import SubmitModel SubmitSpec.

Definition is_rng (a : act) : Prop := match a with Rd _ | Wr _ => True | _ => False end.
Lemma touches_rng a w x : touches a = Some (w, x) -> is_rng a.
Proof. by destruct a. Qed.

Lemma draw_rng k d a : a ∈ concat (repeat draw k) ++ [Push d] -> a <> Lock /\ a <> Unlock.
Proof.
  intros [H|H%elem_of_list_singleton]%elem_of_app; [|by subst]. induction k as [|k IH]; [by apply elem_of_nil in H|]. cbn [repeat concat] in H.
  apply elem_of_app in H as [H|H]; [|by apply IH]. repeat (apply elem_of_cons in H as [->|H]; [done|]). by apply elem_of_nil in H.
Qed.
Lemma body_nolock c a : a ∈ body c -> a <> Lock /\ a <> Unlock.
Proof. destruct c as [k d|d]; [apply draw_rng|]. by intros ->%elem_of_list_singleton. Qed.

(** ** With a mutex *)

(** Thread [t] is between two calls, at the beginning of one, or in the middle of one and holds the mutex. *)
Definition at_pc (s : st) (t : nat) : Prop :=
  (held s <> Some t /\ (todo s t = [] \/ exists c, todo s t = Lock :: body c ++ [Unlock])) \/
  (held s = Some t /\ exists r, todo s t = r ++ [Unlock] /\ forall a, a ∈ r -> a <> Lock /\ a <> Unlock).

Record inv (s : st) : Prop := Inv {
  i_pc : forall t, at_pc s t;
  (* who holds the mutex has locked it after all unlocks *)
  i_held : forall t, held s = Some t -> exists j, log s !! j = Some (t, Lock) /\
    forall i u, log s !! i = Some (u, Unlock) -> i < j;
  (* every access to the generator is followed by an unlock of its thread, unless it holds the mutex *)
  i_acc : forall i u a, log s !! i = Some (u, a) -> is_rng a -> held s = Some u \/ exists j, i < j /\ log s !! j = Some (u, Unlock);
  (* two accesses are ordered *)
  i_ord : forall i j t u a b, i < j -> log s !! i = Some (t, a) -> log s !! j = Some (u, b) -> is_rng a -> is_rng b -> hb (log s) i j
}.

Lemma hb_mono tr tr' i j : hb tr i j -> hb (tr ++ tr') i j.
Proof.
  unfold hb. induction 1 as [i j H|i j k H _ IH]; [apply tc_once|eapply tc_l; [|exact IH]].
  - destruct H as [(H1 & t & a & b & H2 & H3)|(H1 & t & u & H2 & H3)]; [left|right]; (split; [done|]).
    + exists t, a, b. split; by apply lookup_app_l_Some.
    + exists t, u. split; by apply lookup_app_l_Some.
  - destruct H as [(H1 & t & a & b & H2 & H3)|(H1 & t & u & H2 & H3)]; [left|right]; (split; [done|]).
    + exists t, a, b. split; by apply lookup_app_l_Some.
    + exists t, u. split; by apply lookup_app_l_Some.
Qed.

Lemma snoc_lookup {A} (l : list A) x i y : (l ++ [x]) !! i = Some y -> l !! i = Some y \/ (i = length l /\ y = x).
Proof.
  intros H. destruct (decide (i < length l)); [left; by rewrite lookup_app_l in H|right].
  pose proof (lookup_lt_Some _ _ _ H) as Hl. rewrite app_length in Hl. cbn in Hl. assert (i = length l) as -> by lia.
  split; [done|]. rewrite lookup_app_r, Nat.sub_diag in H by lia. by injection H.
Qed.

Lemma set_eq t l f : set_at t l f t = l.
Proof. unfold set_at. by rewrite decide_True. Qed.
Lemma set_ne t u l f : u <> t -> set_at t l f u = f u.
Proof. intros. unfold set_at. by rewrite decide_False. Qed.

Lemma step_inv l s s' : inv s -> step true l s = Some s' -> inv s'.
Proof.
  intros [P H A O]. destruct l as [t c|t]; cbn [step]; destruct (todo s t) as [|a r] eqn:Et; try done.
  - intros [= <-]. split; cbn; [|done..]. intros u. unfold at_pc. cbn. destruct (decide (u = t)) as [->|Hu].
    + rewrite set_eq. left. destruct (P t) as [(Hn & _)|(_ & r & E & _)].
      * split; [done|]. right. by exists c.
      * rewrite Et in E. by destruct r.
    + rewrite set_ne by done. apply P.
  - assert (L : forall i x, log s !! i = Some x -> (log s ++ [(t, a)]) !! i = Some x) by (intros; by apply lookup_app_l_Some).
    destruct (P t) as [(Hn & [E|(c & E)])|(Hh & r' & E & Hr)]; rewrite Et in E.
    + done.
    + (* Lock *)
      injection E as -> ->. destruct (held s) as [v|] eqn:Ev; [done|]. intros [= <-]. split; cbn.
      * intros u. unfold at_pc. cbn. destruct (decide (u = t)) as [->|Hu].
        -- rewrite set_eq. right. split; [done|]. exists (body c). split; [done|]. apply body_nolock.
        -- rewrite set_ne by done. left. split; [congruence|]. destruct (P u) as [(_ & X)|(X & _)]; [done|congruence].
      * intros u [= <-]. exists (length (log s)). split; [by rewrite lookup_app_r, Nat.sub_diag by lia|].
        intros i v [X|(_ & [=])]%snoc_lookup. by apply lookup_lt_Some in X.
      * intros i u b [X|(_ & [= -> ->])]%snoc_lookup Hb; [|done]. destruct (A i u b X Hb) as [|(j & Hj & Y)]; [congruence|]. right. exists j. eauto.
      * intros i j v u b d Hij [X|(-> & [= -> ->])]%snoc_lookup [Y|(-> & [= -> ->])]%snoc_lookup Hb Hd; try done. apply hb_mono. by eapply O.
    + (* in the middle *)
      destruct r' as [|a' r'].
      * (* Unlock *)
        injection E as -> ->. intros [= <-]. split; cbn; [|done|..].
        -- intros u. unfold at_pc. cbn. left. split; [done|]. destruct (decide (u = t)) as [->|Hu]; [rewrite set_eq; by left|].
           rewrite set_ne by done. destruct (P u) as [(_ & X)|(X & _)]; [done|congruence].
        -- intros i u b [X|(_ & [= -> ->])]%snoc_lookup Hb; [|done]. right. destruct (A i u b X Hb) as [Y|(j & Hj & Y)]; [|exists j; eauto].
           assert (u = t) as -> by congruence. exists (length (log s)). split; [by apply lookup_lt_Some in X|]. by rewrite lookup_app_r, Nat.sub_diag by lia.
        -- intros i j v u b d Hij [X|(-> & [= -> ->])]%snoc_lookup [Y|(-> & [= -> ->])]%snoc_lookup Hb Hd; try done. apply hb_mono. by eapply O.
      * (* an action of the call *)
        injection E as -> ->. destruct (Hr a' ltac:(by left)) as [Na Nu].
        intros Hs. assert (s' = St (set_at t (r' ++ [Unlock]) (todo s)) (held s) (log s ++ [(t, a')])) as -> by (destruct a'; congruence). split; cbn.
        -- intros u. unfold at_pc. cbn. destruct (decide (u = t)) as [->|Hu]; [rewrite set_eq|rewrite set_ne by done; apply P].
           right. split; [done|]. exists r'. split; [done|]. intros b Hb. apply Hr. by right.
        -- intros u Hu. destruct (H u Hu) as (j & Hj & Hi). exists j. split; [by apply L|].
           intros i v [X|(_ & [= _ X])]%snoc_lookup; [by eapply Hi|congruence].
        -- intros i u b [X|(-> & [= -> ->])]%snoc_lookup Hb; [|by left]. destruct (A i u b X Hb) as [|(j & Hj & Y)]; [by left|]. right. exists j. eauto.
        -- intros i j v u b d Hij [X|(-> & [= -> ->])]%snoc_lookup [Y|(-> & [= -> ->])]%snoc_lookup Hb Hd; [apply hb_mono; by eapply O| |apply lookup_lt_Some in Y; lia|lia].
           assert (Z : (log s ++ [(t, a')]) !! length (log s) = Some (t, a')) by (by rewrite lookup_app_r, Nat.sub_diag by lia).
           destruct (decide (v = t)) as [->|Hv].
           ++ apply tc_once. left. split; [done|]. exists t, b, a'. eauto.
           ++ destruct (A i v b X Hb) as [?|(k & Hk & Y)]; [congruence|]. destruct (H t Hh) as (j & Hj & Hi). specialize (Hi k v Y).
              apply (tc_l _ _ k); [left; split; [done|]; exists v, b, Unlock; eauto|].
              apply (tc_l _ _ j); [right; split; [done|]; exists v, t; eauto|].
              apply tc_once. left. split; [by apply lookup_lt_Some in Hj|]. exists t, Lock, a'. eauto.
Qed.
Lemma reach_inv ok s : reach true ok s -> inv s.
Proof.
  induction 1 as [|s l s' _ IH _ Hs]; [|by eapply step_inv]. split; cbn; try done. intros t. left. cbn. split; [done|by left].
Qed.

(** ** Without a mutex *)

(** Only thread [t0] uses the pool's schedule. *)
Lemma one_thread t0 s : reach false (fun t c => (exists k d, c = PoolCall k d) -> t = t0) s ->
  (forall t a, a ∈ todo s t -> is_rng a -> t = t0) /\ (forall i t a, log s !! i = Some (t, a) -> is_rng a -> t = t0).
Proof.
  induction 1 as [|s l s' _ (IT & IL) Hl Hs]; [split; [|done]; intros t a H; by apply elem_of_nil in H|].
  destruct l as [t c|t]; cbn [step] in Hs; destruct (todo s t) as [|a r] eqn:Et; try done.
  - injection Hs as <-. split; [|done]. cbn. intros u a. unfold set_at. case_decide as E; [|apply IT]. subst u. intros Ha Hr. apply Hl.
    destruct c as [k d|d]; [by eauto|]. cbn in Ha. apply elem_of_list_singleton in Ha. by subst a.
  - assert (s' = St (set_at t r (todo s)) (held s') (log s ++ [(t, a)])) as -> by (destruct a, (held s); try done; by injection Hs as <-). cbn. split.
    + intros u b. unfold set_at. case_decide as E; [|apply IT]. subst u. intros Hb. apply IT. rewrite Et. by right.
    + intros i u b [X|(_ & [= -> ->])]%snoc_lookup Hb; [by eapply IL|]. apply (IT t a); [rewrite Et; by left|done].
Qed.

(** If nobody locks a mutex, only actions of the same thread are ordered. *)
Lemma hb_same tr i j : (forall k t, tr !! k <> Some (t, Unlock)) -> hb tr i j ->
  exists t a b, tr !! i = Some (t, a) /\ tr !! j = Some (t, b).
Proof.
  intros Hn. unfold hb. induction 1 as [i j H|i j k H _ (t & a & b & H1 & H2)].
  - destruct H as [(_ & H)|(_ & t & u & H & _)]; [done|]. by destruct (Hn i t).
  - destruct H as [(_ & t' & a' & b' & H3 & H4)|(_ & t' & u & H & _)]; [|by destruct (Hn i t')].
    assert (t' = t) as -> by congruence. by exists t, a', b.
Qed.

(** All actions of a list in a row. *)
Fixpoint acts (mutex : bool) (ls : list lab) (s : st) : option st :=
  match ls with [] => Some s | l :: ls => match step mutex l s with Some s' => acts mutex ls s' | None => None end end.
Lemma acts_reach mutex (ok : nat -> call -> Prop) ls : forall s s', reach mutex ok s ->
  Forall (fun l => match l with Begin t c => ok t c | Act _ => True end) ls -> acts mutex ls s = Some s' -> reach mutex ok s'.
Proof.
  induction ls as [|l ls IH]; intros s s' Hr HF E; cbn in E; [by injection E as <-|]. destruct (step mutex l s) as [s1|] eqn:Es; [|done].
  apply Forall_cons in HF as [H1 H2]. eapply IH; [|exact H2|exact E]. by econstructor.
Qed.
