(** * The deque on a machine with store buffers: invariant. *)

From stdpp Require Import prelude gmap list.
From Coq Require Import ZArith Lia.
From Verif Require Import DequeModel DequeSpec DequeProofs WeakModel.
Local Open Scope Z_scope.

Section proofs.
Context {V : Type}.
Notation pending := (write V * bool)%type.
Notation mem := (Z * nat * list (ring V))%type.
Implicit Types (r : ring V) (s : deque V) (h : list (dev V)) (l : list pending) (m : mem) (x : wm V) (w : write V).

(** ** Stores *)

Definition stores (l : list pending) (m : mem) : mem := fold_left (fun m y => store (fst y) m) l m.

Lemma stores_app l1 l2 m : stores (l1 ++ l2) m = stores l2 (stores l1 m).
Proof. apply fold_left_app. Qed.

Definition load_in (bufs : list (ring V)) (c : nat) (p : Z) : option V :=
  match bufs !! c with Some r => r_load r p | None => None end.
Definition cap_in (bufs : list (ring V)) (c : nat) : Z :=
  match bufs !! c with Some r => r_cap r | None => 0 end.

Lemma store_len w m : length (store w m).2 = length m.2.
Proof. destruct m as [[b c] bufs], w; cbn; try done. apply alter_length. Qed.
Lemma store_cap w m c : cap_in (store w m).2 c = cap_in m.2 c.
Proof.
  destruct m as [[b c0] bufs], w as [| |c' j v]; cbn; try done. unfold cap_in.
  destruct (decide (c' = c)) as [->|]; [|by rewrite list_lookup_alter_ne].
  rewrite list_lookup_alter. by destruct (bufs !! c).
Qed.
Lemma stores_len l m : length (stores l m).2 = length m.2.
Proof. revert m. induction l as [|y l IH]; intros m; [done|]. cbn. unfold stores in IH. by rewrite IH, store_len. Qed.
Lemma stores_cap l m c : cap_in (stores l m).2 c = cap_in m.2 c.
Proof. revert m. induction l as [|y l IH]; intros m; [done|]. cbn. unfold stores in IH. by rewrite IH, store_cap. Qed.

Lemma slot_cap (r r' : ring V) j : r_cap r = r_cap r' -> slot r j = slot r' j.
Proof. unfold slot. by intros ->. Qed.

Lemma same_loc_store w m a b : same_loc (store w m).2 a b = same_loc m.2 a b.
Proof.
  destruct m as [[b0 c0] bufs], w as [| |c' j v]; cbn; try done. destruct a, b; cbn; try done.
  f_equal. destruct (decide (c' = c)) as [->|]; [|by rewrite list_lookup_alter_ne].
  rewrite list_lookup_alter. by destruct (bufs !! c).
Qed.

Lemma store_comm w y m : same_loc m.2 y w = false -> store w (store y m) = store y (store w m).
Proof.
  destruct m as [[b0 c0] bufs], w as [| |c j v], y as [| |c' j' v']; cbn [same_loc store snd]; try done. intros H. f_equal.
  destruct (decide (c = c')) as [->|Hne]; [|by apply list_alter_commute].
  apply list_eq. intros i. destruct (decide (i = c')) as [->|]; [|by rewrite !list_lookup_alter_ne].
  rewrite !list_lookup_alter. destruct (bufs !! c') as [r|] eqn:E; [|done]. cbn. f_equal.
  rewrite bool_decide_true in H by done. cbn [andb] in H. apply bool_decide_eq_false in H.
  unfold r_store. cbn. f_equal. by apply insert_commute.
Qed.

Lemma stores_comm w l m :
  Forall (fun y : pending => same_loc m.2 y.1 w = false) l -> stores l (store w m) = store w (stores l m).
Proof.
  intros H. revert m H. induction l as [|y l IH]; intros m H; [done|]. cbn. apply Forall_cons in H as (H1 & H2).
  rewrite <- store_comm by done. unfold stores in IH. rewrite IH; [done|].
  eapply Forall_impl; [exact H2|]. intros z Hz. cbn in *. by rewrite same_loc_store.
Qed.

(** ** What a thief may rely on *)

Fixpoint okl (caps : nat -> Z) (p : Z) (l : list pending) : Prop :=
  match l with
  | [] => True
  | (WSlot c j _, _) :: l' =>
    (p + 1 < j + caps c /\ j < p + caps c /\ (j <> p \/ exists f, (WCur c, f) ∈ l')) /\ okl caps p l'
  | _ :: l' => okl caps p l'
  end.

(** The items with an index below [z] are in all ring buffers from [c0] on, and the stores [l] spare them. *)
Definition sees s (c0 : nat) l (z : Z) : Prop :=
  forall p, d_top s <= p < z ->
    p < hi s /\ (forall c, (c0 <= c <= d_cur s)%nat -> load_in (d_bufs s) c p = load_in (d_bufs s) (d_cur s) p) /\
    okl (cap_in (d_bufs s)) p l.

Fixpoint chain s (c0 : nat) l : Prop :=
  match l with
  | [] => True
  | (WBot z, _) :: l' => sees s c0 l' z /\ chain s c0 l'
  | (WCur c, _) :: l' => (c0 < c <= d_cur s)%nat /\ chain s c l'
  | (WSlot _ _ _, _) :: l' => chain s c0 l'
  end.

Fixpoint bots (ok : bool) l : Prop :=
  match l with
  | [] => True
  | (WBot _, f) :: l' => (ok = true \/ f = true) /\ bots true l'
  | _ :: l' => bots false l'
  end.

Definition ends l : Prop := l = [] \/ exists l' z f, l = l' ++ [(WBot z, f)].

Definition own_w s l : Prop :=
  match d_own s with
  | OPushPub v b t r => ends l /\ exists r0, r = resize r0 b t /\ ring_ok r0 /\ t <= b /\ b - t <= r_cap r0
  | OPushStore _ _ _ | OPushBot _ _ => True
  | OPopCas _ _ | OPopRestore _ _ => l = []
  | _ => ends l
  end.

Record winv (k : nat) x h : Prop := {
  w_inv : inv k (x_view x) h;
  w_mem : stores (x_pend x) (x_bot x, x_cur x, x_bufs x) = (d_bot (x_view x), d_cur (x_view x), d_bufs (x_view x));
  w_bot : sees (x_view x) (x_cur x) (x_pend x) (x_bot x);
  w_chain : chain (x_view x) (x_cur x) (x_pend x);
  w_thf : forall i t, d_thf (x_view x) i = TBuf t \/ (exists b, d_thf (x_view x) i = TSlot t b) ->
    sees (x_view x) (x_cur x) (x_pend x) (t + 1);
  w_held : forall i t b, d_thf (x_view x) i = TSlot t b -> (b <= x_cur x)%nat;
  w_bots : bots true (x_pend x);
  w_curs : forall c f, (WCur c, f) ∈ x_pend x -> f = true;
  w_slots : forall c j v f, (WSlot c j v, f) ∈ x_pend x -> (c < length (d_bufs (x_view x)))%nat;
  w_rings : Forall ring_ok (d_bufs (x_view x));
  w_own : own_w (x_view x) (x_pend x)
}.

(** *** Lists of stores *)

Lemma okl_app caps p l1 l2 : okl caps p l1 -> okl caps p l2 -> okl caps p (l1 ++ l2).
Proof.
  intros H1 H2. induction l1 as [|[[z|c|c j v] f] l1 IH]; cbn in *; auto. destruct H1 as ((A & B & C) & D).
  split; [|auto]. split_and!; [done|done|]. destruct C as [C|(f0 & C)]; [by left|right; exists f0; set_solver].
Qed.

Lemma okl_drop caps p l1 y l2 : (match y.1 with WCur _ => l1 = [] | _ => True end) ->
  okl caps p (l1 ++ y :: l2) -> okl caps p (l1 ++ l2).
Proof.
  intros Hy. induction l1 as [|[[z|c|c j v] f] l1 IH]; cbn [app].
  - destruct y as [[] ?]; cbn; try done. tauto.
  - cbn. apply IH. by destruct (y.1).
  - cbn. apply IH. by destruct (y.1).
  - cbn. intros ((A & B & C) & D). split; [split_and!; [done|done|]|apply IH; [by destruct (y.1)|done]].
    destruct C as [C|(f0 & C)]; [by left|right; exists f0].
    apply elem_of_app in C as [C|C]; [set_solver|]. apply elem_of_cons in C as [<-|C]; [done|set_solver].
Qed.

Lemma okl_caps caps caps' p l : (forall c, 0 < caps c -> caps' c = caps c) -> okl caps p l -> okl caps' p l.
Proof.
  intros Hc. induction l as [|[[z|c|c j v] f] l IH]; cbn; auto. intros ((A & B & C) & D).
  rewrite Hc by lia. auto.
Qed.

Lemma bots_mono l : bots false l -> bots true l.
Proof. destruct l as [|[[z|c|c j v] f] l]; cbn; try done. intros ([|] & ?); auto. Qed.

Lemma bots_drop b l1 y l2 : bots b (l1 ++ y :: l2) -> (match y.1 with WBot _ => l1 = [] /\ b = true | _ => True end) -> bots b (l1 ++ l2).
Proof.
  revert b. induction l1 as [|[[z|c|c j v] f] l1 IH]; intros b; cbn [app].
  - destruct y as [[] f]; cbn.
    + by intros (_ & H) (_ & ->).
    + intros H _. destruct b; [by apply bots_mono|done].
    + intros H _. destruct b; [by apply bots_mono|done].
  - cbn. intros (A & B) Hy. split; [done|]. apply IH; [done|]. destruct (y.1); [naive_solver|done|done].
  - cbn. intros B Hy. apply IH; [done|]. destruct (y.1); [naive_solver|done|done].
  - cbn. intros B Hy. apply IH; [done|]. destruct (y.1); [naive_solver|done|done].
Qed.

Lemma bots_snoc_fenced b l z : bots b l -> bots b (l ++ [(WBot z, true)]).
Proof. revert b. induction l as [|[[z'|c|c j v] f] l IH]; intros b; cbn; auto. intros (? & ?). auto. Qed.
Lemma bots_ends l z f : ends l -> bots true l -> bots true (l ++ [(WBot z, f)]).
Proof.
  intros [->|(l' & z' & f' & ->)]; [cbn; auto|]. rewrite <- app_assoc. cbn [app].
  assert (H : forall b, bots b (l' ++ [(WBot z', f')]) -> bots b (l' ++ [(WBot z', f'); (WBot z, f)])); [|apply H].
  induction l' as [|[[z0|c|c j v] f0] l' IH]; intros b; cbn; auto; try tauto. intros (? & ?). auto.
Qed.
Lemma bots_nobot b l l' : bots b l -> (forall y, y ∈ l' -> match y.1 with WBot _ => False | _ => True end) -> bots b (l ++ l').
Proof.
  revert b. induction l as [|[[z|c|c j v] f] l IH]; intros b; cbn [app].
  - intros _ H. revert b. induction l' as [|[[z|c|c j v] f] l' IH]; intros b; cbn; [done|..].
    + destruct (H (WBot z, f)). by left.
    + apply IH. intros y Hy. apply H. by right.
    + apply IH. intros y Hy. apply H. by right.
  - cbn. intros (? & ?) ?. auto.
  - cbn. auto.
  - cbn. auto.
Qed.

(** A committed store to m_bottom or m_buf is the oldest of the buffer. *)
Lemma commit_bot bufs l1 z f l2 : bots true (l1 ++ (WBot z, f) :: l2) -> may_commit bufs l1 (WBot z) f = true -> l1 = [].
Proof.
  intros Hb Hm. destruct l1 as [|y l1]; [done|]. exfalso. cbn [may_commit] in Hm.
  apply andb_prop in Hm as (Hm & Hs). apply andb_prop in Hm as (Hf & _).
  destruct f; [done|].
  assert (HA : forall b l1, l1 <> [] \/ b = false -> forallb (fun y : pending => negb (same_loc bufs y.1 (WBot z))) l1 = true ->
    ~ bots b (l1 ++ (WBot z, false) :: l2)).
  { clear. intros b l1. revert b. induction l1 as [|[[z'|c|c j v] f] l1 IH]; intros b Hne Hs; cbn in *; try done.
    - destruct Hne as [?| ->]; [done|]. intros ([|] & _); done.
    - apply IH; [by right|done].
    - apply IH; [by right|done]. }
  by apply (HA true (y :: l1)); [left| |].
Qed.

(** *** [sees] and [chain] *)

Lemma sees_drop s c0 l1 y l2 z : (match y.1 with WCur _ => l1 = [] | _ => True end) ->
  sees s c0 (l1 ++ y :: l2) z -> sees s c0 (l1 ++ l2) z.
Proof. intros Hy H p Hp. destruct (H p Hp) as (A & B & C). split_and!; [done|done|by eapply okl_drop]. Qed.

Lemma sees_le s c0 c1 l z z' : sees s c0 l z -> (c0 <= c1)%nat -> z' <= z -> sees s c1 l z'.
Proof. intros H Hc Hz p Hp. destruct (H p) as (A & B & C); [lia|]. split_and!; [done| |done]. intros c Hc'. apply B. lia. Qed.

Lemma sees_mono s s' c0 l z :
  sees s c0 l z -> d_top s <= d_top s' -> d_bufs s' = d_bufs s -> d_cur s' = d_cur s ->
  (forall p, d_top s' <= p < z -> p < hi s -> p < hi s') -> sees s' c0 l z.
Proof.
  intros H Ht Hb Hc Hh p Hp. destruct (H p) as (A & B & C); [lia|]. rewrite Hb, Hc. split_and!; auto.
Qed.

Lemma chain_drop_slot s c0 l1 c j v f l2 : chain s c0 (l1 ++ (WSlot c j v, f) :: l2) -> chain s c0 (l1 ++ l2).
Proof.
  revert c0. induction l1 as [|[[z|c'|c' j' v'] f'] l1 IH]; intros c0; cbn; auto.
  - intros (A & B). split; [by eapply (sees_drop _ _ _ (WSlot c j v, f)); [|exact A]|auto].
  - intros (A & B). auto.
Qed.

Lemma chain_gt s c0 l c f : chain s c0 l -> (WCur c, f) ∈ l -> (c0 < c <= d_cur s)%nat.
Proof.
  revert c0. induction l as [|[[z|c'|c' j' v'] f'] l IH]; intros c0; cbn; [by intros _ ?%elem_of_nil|..].
  - intros (_ & H) [?|Hc]%elem_of_cons; [done|]. by eapply IH.
  - intros (H1 & H2) [E|Hc]%elem_of_cons; [by injection E as -> ->|]. specialize (IH c' H2 Hc). lia.
  - intros H [?|Hc]%elem_of_cons; [done|]. by eapply IH.
Qed.

Lemma chain_cur s c0 l b bufs : chain s c0 l -> (c0 <= (stores l (b, c0, bufs)).1.2)%nat.
Proof.
  revert c0 b bufs. induction l as [|[[z|c'|c' j' v'] f'] l IH]; intros c0 b bufs; cbn; [done|..].
  - intros (_ & H). by apply IH.
  - intros (H1 & H2). specialize (IH c' b bufs H2). unfold stores in IH. lia.
  - intros H. by apply IH.
Qed.

Lemma chain_app s s' c0 l new b bufs :
  chain s c0 l -> (c0 <= d_cur s)%nat ->
  (forall c0 l z, (c0 <= d_cur s)%nat -> sees s c0 l z -> sees s' c0 (l ++ new) z) ->
  (d_cur s <= d_cur s')%nat ->
  (stores l (b, c0, bufs)).1.2 = d_cur s ->
  chain s' (d_cur s) new -> chain s' c0 (l ++ new).
Proof.
  intros HC Hle HS Hcur He Hn. revert c0 b bufs HC Hle He.
  induction l as [|[[z|c'|c' j' v'] f'] l IH]; intros c0 b bufs; cbn.
  - by intros _ _ ->.
  - intros (A & B) Hle He. split; [by apply HS|]. by eapply IH.
  - intros (A & B) Hle He. split; [lia|]. eapply IH; [done|lia|exact He].
  - intros B Hle He. by eapply IH.
Qed.

Lemma chain_mono s s' c0 l :
  chain s c0 l -> (forall c0 z l, sees s c0 l z -> sees s' c0 l z) -> d_cur s' = d_cur s -> chain s' c0 l.
Proof.
  intros H HS Hc. revert c0 H. induction l as [|[[z|c'|c' j' v'] f'] l IH]; intros c0; cbn; auto.
  - intros (A & B). auto.
  - rewrite Hc. intros (A & B). auto.
Qed.

(** Memory holds the items that thieves rely on. *)
Lemma spared l b (c0 : nat) bufs s c p :
  Forall ring_ok bufs -> (forall c, cap_in bufs c = cap_in (d_bufs s) c) ->
  (forall f, (WCur c, f) ∉ l) -> okl (cap_in (d_bufs s)) p l ->
  load_in (stores l (b, c0, bufs)).2 c p = load_in bufs c p.
Proof.
  revert b c0 bufs. induction l as [|[[z|c'|c' j' v'] f'] l IH]; intros b c0 bufs Hr Hcap Hcur Hok; cbn [stores fold_left store fst]; [done|..].
  - apply IH; try done. set_solver.
  - apply IH; try done. set_solver.
  - cbn in Hok. destruct Hok as ((A & B & C) & D). unfold stores in IH. rewrite IH; try done.
    + unfold load_in. destruct (decide (c' = c)) as [->|]; [|by rewrite list_lookup_alter_ne].
      rewrite list_lookup_alter. specialize (Hcap c). unfold cap_in in *.
      destruct (bufs !! c) as [r|] eqn:E; [|done]. cbn.
      destruct C as [C|(f0 & C)]; [|exfalso; eapply (Hcur f0); by right].
      apply load_store_ne; [|done|].
      * rewrite Forall_lookup in Hr. by eapply Hr.
      * rewrite Hcap. lia.
    + apply Forall_alter; [done|]. intros r _ Hk. exact Hk.
    + intros c1. rewrite <- Hcap. exact (store_cap (WSlot c' j' v') (b, c0, bufs) c1).
    + intros f Hf. apply (Hcur f). by right.
Qed.

(** *** Copies *)
Lemma copies_load n i c r1 r2 : (forall j, i <= j < i + Z.of_nat n -> r_load r1 j = r_load r2 j) ->
  copies n i c r1 = copies n i c r2.
Proof.
  revert i. induction n as [|n IH]; intros i H; cbn; [done|]. rewrite H by lia. f_equal. apply IH. intros j Hj. apply H. lia.
Qed.

Lemma copies_stores n i r0 (t : bool) b (c0 : nat) bufs to_ :
  stores (map (fun w => (w, t)) (copies n i (length bufs) r0)) (b, c0, bufs ++ [to_]) = (b, c0, bufs ++ [copy n i r0 to_]).
Proof.
  revert i to_. induction n as [|n IH]; intros i to_; cbn [copies copy map]; [done|].
  destruct (r_load r0 i) as [v|]; cbn [app map]; [|apply IH].
  cbn [stores fold_left fst store]. unfold stores in IH. rewrite <- IH. do 2 f_equal.
  rewrite <- (Nat.add_0_r (length bufs)) at 1. by rewrite alter_app_r.
Qed.

Lemma copies_in n i c r0 w : w ∈ copies n i c r0 -> exists j v, w = WSlot c j v /\ i <= j < i + Z.of_nat n.
Proof.
  revert i. induction n as [|n IH]; intros i; cbn [copies]; [by intros ?%elem_of_nil|].
  intros [H|H]%elem_of_app.
  - destruct (r_load r0 i); [|by apply elem_of_nil in H]. apply elem_of_list_singleton in H as ->. exists i, v. split; [done|lia].
  - apply IH in H as (j & v & -> & ?). exists j, v. split; [done|lia].
Qed.

Lemma winv_init k : winv k (winit (2 ^ Z.of_nat k)) [].
Proof.
  split; cbn; try done.
  - apply inv_init.
  - intros p Hp. cbn in Hp. lia.
  - intros i t [?|(? & ?)]; done.
  - by intros ?? ?%elem_of_nil.
  - by intros ???? ?%elem_of_nil.
  - repeat constructor. by exists k.
  - by left.
Qed.

End proofs.
