(** * The life of a thread pool: the constructor ends. *)

From stdpp Require Import prelude list.
From Coq Require Import Lia.
From Verif Require Import PoolCommon LifeModel LifeSpec LifeProofs.
From Verif Require PoolFair.

Lemma next_inj a b : Next a = Next b -> a = b.
Proof. by injection 1. Qed.

Section Live.
Context (n : nat) (unit : bool) (client : nat -> bool) (Hn : 0 < n) (Hu : unit = true -> n = 1).
Notation step := (step n unit client).
Notation inv := (inv n unit).
Notation enabled := (enabled n unit client).

Definition constructing (s : st) : Prop :=
  match mpc s with MCtx _ | MDist | MThr _ | MArrive | MWait | MView _ => True | _ => False end.
Definition ended (s : st) : Prop := mpc s = MAlive \/ mpc s = MThrown.

Definition mrank (m : mp) : nat :=
  match m with
  | MCtx i => (n - i) + 2 * n + 8 | MDist => 2 * n + 7 | MThr i => (n - i) + n + 6 | MArrive => n + 5 | MWait => n + 4
  | MView i => (n - i) + 2 | _ => 0
  end.
Definition wrank (p : wp) : nat := match p with W0 | WInit => 3 | WField => 2 | WArrive => 1 | _ => 0 end.
Fixpoint total (f : nat -> nat) (k : nat) : nat := match k with 0 => 0 | S m => f m + total f m end.
Lemma total_set (g : nat -> wp) w p k : w < k ->
  total (fun u => wrank (fset w p g u)) k + wrank (g w) = total (fun u => wrank (g u)) k + wrank p.
Proof.
  induction k as [|k IH]; simpl; intros H; [lia|]. destruct (decide (w = k)) as [->|].
  - rewrite fset_eq. assert (total (fun u => wrank (fset k p g u)) k = total (fun u => wrank (g u)) k) as ->; [|lia].
    clear. assert (forall m, m <= k -> total (fun u => wrank (fset k p g u)) m = total (fun u => wrank (g u)) m) as H; [|by apply H].
    induction m as [|m IH]; intros Hm; simpl; [done|]. rewrite IH by lia. unfold fset. rewrite decide_False by lia. done.
  - rewrite fset_ne by lia. specialize (IH ltac:(lia)). lia.
Qed.
Definition mu (s : st) : nat := mrank (mpc s) + total (fun w => wrank (wpc s w)) n.

(** Who can bring the constructor on. *)
Definition helps (w : option nat) (s : st) : Prop :=
  match w with
  | None => mpc s <> MWait \/ start s = 0
  | Some w => w < n /\ (wpc s w = WInit \/ wpc s w = WField \/ wpc s w = WArrive)
  end.
Definition mine (w : option nat) (x : lab) : Prop :=
  match w, x with None, LMaster _ => True | Some w, LWorker u _ _ => u = w | _, _ => False end.

Lemma somebody_helps s : inv s -> constructing s -> exists w, helps w s.
Proof.
  intros I Hc. destruct (decide (start s = 0)) as [E|E]; [exists None; by right|].
  assert (mpc s = MWait \/ mpc s <> MWait) as [Em|Em].
  { destruct (mpc s); try (by right); by left. }
  2: { exists None. by left. }
  pose proof (i_start _ _ s I) as Hs. unfold late in Hs. rewrite Em in Hs.
  destruct (cnt_pos (fun w => fresh (wpc s w)) n) as (w & Hw & Hf); [destruct unit; lia|].
  exists (Some w). split; [done|]. pose proof (i_m _ _ s I) as M. unfold mok in M. rewrite Em in M. destruct M as (M & _). specialize (M w Hw).
  destruct (wpc s w); try done; auto.
Qed.

Lemma master_step f s s' : constructing s -> master n unit f s = Next s' ->
  (mu s' < mu s /\ constructing s') \/ (wpc s' = wpc s /\ ended s') \/
  exists i, i < n /\ mpc s = MThr i /\ mpc s' = MThr (S i) /\ wpc s' = fset i WInit (wpc s).
Proof.
  intros Hc Hs. unfold constructing in Hc. unfold master, throw in Hs. unfold mu, constructing, ended.
  destruct (mpc s) eqn:Em; try done; repeat case_decide; destruct f; try done; try (destruct unit; try done); injection Hs as <-; simpl;
    try (right; left; by auto); try (left; split; [lia|done]); right; right; eauto.
Qed.
Lemma master_mu f s s' : inv s -> constructing s -> master n unit f s = Next s' -> (mu s' < mu s /\ constructing s') \/ ended s'.
Proof.
  intros I Hc Hs. destruct (master_step f s s' Hc Hs) as [?|[[_ ?]|(i & Hi & E1 & E2 & E3)]]; [by left|by right|left].
  pose proof (i_m _ _ s I) as M. unfold mok in M. rewrite E1 in M. destruct M as (_ & M & _).
  assert (wpc s i = W0) as Ei by (by apply M). unfold mu, constructing. rewrite E1, E2, E3. split; [|done].
  pose proof (total_set (wpc s) i WInit n Hi) as Ht. rewrite Ei in Ht. simpl in Ht. simpl. lia.
Qed.
Lemma worker_mu w a f s s' : w < n -> worker n unit w a f s = Next s' ->
  mpc s' = mpc s /\ (exists p, wpc s' = fset w p (wpc s)) /\ mu s' <= mu s /\ start s' <= start s /\ (helps (Some w) s -> mu s' < mu s).
Proof.
  intros Hw Hs. unfold worker, thru, live in Hs.
  assert (forall p, wpc s' = fset w p (wpc s) -> mpc s' = mpc s -> mu s' + wrank (wpc s w) = mu s + wrank p) as Hm.
  { intros p E1 E2. unfold mu. rewrite E1, E2. pose proof (total_set (wpc s) w p n Hw). lia. }
  assert (exists p, wpc s' = fset w p (wpc s) /\ mpc s' = mpc s /\ start s' <= start s /\ wrank p <= wrank (wpc s w) /\
    (wpc s w = WInit \/ wpc s w = WField \/ wpc s w = WArrive -> wrank p < wrank (wpc s w))) as (p & E1 & E2 & E3 & E4 & E5).
  { destruct (wpc s w) eqn:Ew; try done;
      repeat match type of Hs with context [match ?x with _ => _ end] => destruct x eqn:?; try done end;
      apply next_inj in Hs; rewrite <- Hs; simpl; eexists;
      (split; [reflexivity|]); (split; [done|]); (split; [lia|]); (split; [simpl; lia|]); intros [?|[?|?]]; try done; simpl; lia. }
  specialize (Hm p E1 E2). split_and!; [done|by exists p|lia|done|]. intros [_ H]. specialize (E5 H). lia.
Qed.

Lemma enabled_helps w s : constructing s -> inv s -> helps w s -> exists x, mine w x /\ enabled x s.
Proof.
  intros Hc I Hh. destruct w as [w|].
  - destruct Hh as [Hw H]. exists (LWorker w APop false). split; [done|]. unfold LifeSpec.enabled. simpl. rewrite decide_True by done.
    assert (held unit s = true) as Hd by (apply (held_true n unit Hn Hu s w I Hw); destruct H as [H|[H|H]]; by rewrite H).
    unfold worker. rewrite Hd. by destruct H as [->|[->| ->]].
  - exists (LMaster false). split; [done|]. unfold LifeSpec.enabled, constructing in *. simpl. unfold master, throw.
    destruct (mpc s) eqn:Em; try done; repeat case_decide; try done. destruct Hh as [?|?]; done.
Qed.

(** Steps of others do not take the help away. *)
Lemma other_helps w x s s' : inv s -> constructing s -> helps w s -> step x s = Next s' -> ~ mine w x ->
  ended s' \/ (constructing s' /\ (mu s' < mu s \/ (mu s' <= mu s /\ helps w s'))).
Proof.
  intros I Hc Hh Hs Hx. destruct x as [f|u a f|k d|]; simpl in Hs.
  - destruct (master_mu f s s' I Hc Hs) as [[??]|?]; auto.
  - case_decide as Hw; [|done]. destruct (worker_mu u a f s s' Hw Hs) as (E1 & (p & E2) & E3 & E4 & E5). right.
    unfold constructing in *. rewrite E1. split; [done|]. right. split; [done|]. destruct w as [w|]; simpl in *.
    + rewrite E2. by rewrite fset_ne.
    + rewrite E1. destruct Hh as [?|?]; [by left|right; lia].
  - unfold other, thru, live in Hs. right.
    assert (mpc s' = mpc s /\ wpc s' = wpc s /\ start s' = start s) as (E1 & E2 & E3) by (repeat case_match; try done; by injection Hs as <-).
    unfold constructing, mu, helps in *. rewrite E1, E2, E3. split; [done|]. right. by split; [lia|].
  - unfold constructing in Hc. by destruct (mpc s).
Qed.

Context (sg : nat -> st) (l : nat -> option lab) (HF : fair n unit client sg l).

Lemma run_inv i : inv (sg i).
Proof.
  induction i as [|i IH]; [rewrite (fr_init _ _ _ _ _ HF); by apply inv_init|].
  pose proof (fr_step _ _ _ _ _ HF i) as Hs. rewrite Nat.add_1_r in Hs. destruct (l i) as [x|]; [|by rewrite Hs].
  destruct Hs as [Hc Hs]. by eapply (step_inv n unit client).
Qed.

Lemma fair_mine w i : (match w with Some w => w < n | None => True end) ->
  exists j, i <= j /\ ((exists x, l j = Some x /\ mine w x) \/ forall x, mine w x -> ~ enabled x (sg j)).
Proof.
  intros Hw. destruct w as [w|].
  - destruct (fr_worker _ _ _ _ _ HF w i Hw) as (j & Hj & [(a & f & E)|H]); exists j; (split; [done|]).
    + left. by exists (LWorker w a f).
    + right. intros [|u a f| |] Hx; try done. simpl in Hx. subst. apply H.
  - destruct (fr_master _ _ _ _ _ HF i) as (j & Hj & [(f & E)|H]); exists j; (split; [done|]).
    + left. by exists (LMaster f).
    + right. intros [f| | |] Hx; try done.
Qed.

Lemma mine_dec w x : mine w x \/ ~ mine w x.
Proof. destruct w as [w|], x as [f|u a f|k d|]; simpl; auto. destruct (decide (u = w)); auto. Qed.

Lemma construction_ends m : forall i, mu (sg i) <= m -> constructing (sg i) -> exists j, i <= j /\ ended (sg j).
Proof.
  induction m as [m IH] using lt_wf_ind. intros i Hm Hc.
  destruct (somebody_helps (sg i) (run_inv i) Hc) as [w Hh].
  destruct (PoolFair.until (fun k => constructing (sg k) /\ mu (sg k) <= m /\ helps w (sg k))
    (fun k => ended (sg k) \/ (constructing (sg k) /\ mu (sg k) < m))
    (fun k => (exists x, l k = Some x /\ mine w x) \/ forall x, mine w x -> ~ enabled x (sg k)) i) as (j & Hj & [[He|[Hc' Hm']]|((H1 & H2 & H3) & HX)]).
  - intros k Hk (H1 & H2 & H3). pose proof (fr_step _ _ _ _ _ HF k) as Hs. destruct (l k) as [x|] eqn:El.
    + destruct (mine_dec w x) as [Hx|Hx]; [left; left; by exists x|]. destruct Hs as [_ Hs].
      destruct (other_helps w x _ _ (run_inv k) H1 H3 Hs Hx) as [He|[Hc' [Hl|[Hl Hh']]]].
      * right. right. by left.
      * right. right. right. split; [done|lia].
      * right. left. split_and!; [done|lia|done].
    + right. left. rewrite Hs. done.
  - done.
  - apply fair_mine. destruct w; [by destruct Hh|done].
  - exists j. by split.
  - destruct (IH (mu (sg j)) ltac:(lia) j (le_n _) Hc') as (j' & Hj' & He). exists j'. split; [lia|done].
  - destruct HX as [(x & El & Hx)|HX].
    + pose proof (fr_step _ _ _ _ _ HF j) as Hs. rewrite El in Hs. destruct Hs as [_ Hs].
      assert (ended (sg (j + 1)) \/ (constructing (sg (j + 1)) /\ mu (sg (j + 1)) < mu (sg j))) as [He|[Hc' Hl]].
      { destruct w as [w|], x as [f|u a f|k d|]; try done; simpl in Hs, Hx.
        - subst u. case_decide as Hw; [|done]. destruct (worker_mu w a f _ _ Hw Hs) as (E1 & _ & _ & _ & E5). right.
          split; [unfold constructing; by rewrite E1|by apply E5].
        - destruct (master_mu f _ _ (run_inv j) H1 Hs) as [[??]|?]; auto. }
      * exists (j + 1). split; [lia|done].
      * destruct (IH (mu (sg (j + 1))) ltac:(lia) (j + 1) (le_n _) Hc') as (j' & Hj' & He). exists j'. split; [lia|done].
    + destruct (enabled_helps w (sg j) H1 (run_inv j) H3) as (x & Hx & He). by destruct (HX x Hx).
Qed.

Lemma constructor_ends : exists i, ended (sg i).
Proof.
  destruct (construction_ends (mu (sg 0)) 0 (le_n _)) as (j & _ & H); [|by exists j].
  rewrite (fr_init _ _ _ _ _ HF). unfold constructing, init. simpl. by destruct unit.
Qed.
End Live.
