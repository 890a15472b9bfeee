(** * The life of a thread pool: invariant. *)

From stdpp Require Import prelude list.
From Coq Require Import Lia.
From Verif Require Import PoolCommon LifeModel LifeSpec.

(** ** Counting *)
Fixpoint cnt (f : nat -> bool) (n : nat) : nat :=
  match n with 0 => 0 | S m => (if f m then 1 else 0) + cnt f m end.
Lemma cnt_ext f g n : (forall w, w < n -> f w = g w) -> cnt f n = cnt g n.
Proof. induction n as [|n IH]; intros H; simpl; [done|]. rewrite (H n), IH by (intros; try apply H; lia). done. Qed.
Lemma cnt_pos f n : 0 < cnt f n -> exists w, w < n /\ f w = true.
Proof.
  induction n as [|n IH]; simpl; intros H; [lia|]. destruct (f n) eqn:E; [exists n; eauto with lia|].
  destruct IH as (w & Hw & Hf); [lia|]. exists w. eauto with lia.
Qed.
Lemma cnt_ge f n w : w < n -> f w = true -> 0 < cnt f n.
Proof.
  induction n as [|n IH]; simpl; intros H Hf; [lia|]. destruct (decide (w = n)) as [->|]; [rewrite Hf; lia|].
  specialize (IH ltac:(lia) Hf). lia.
Qed.
Lemma cnt_all f n : (forall w, w < n -> f w = true) -> cnt f n = n.
Proof. induction n as [|n IH]; intros H; simpl; [done|]. rewrite (H n), IH by (intros; try apply H; lia). lia. Qed.
Lemma cnt_le f n : cnt f n <= n.
Proof. induction n as [|n IH]; simpl; [lia|]. destruct (f n); lia. Qed.
Lemma cnt_none f n : (forall w, w < n -> f w = false) -> cnt f n = 0.
Proof. induction n as [|n IH]; intros H; simpl; [done|]. rewrite (H n), IH by (intros; try apply H; lia). lia. Qed.
Lemma cnt_set {A} (f : A -> bool) (g : nat -> A) w p n : w < n ->
  cnt (fun u => f (fset w p g u)) n + (if f (g w) then 1 else 0) = cnt (fun u => f (g u)) n + (if f p then 1 else 0).
Proof.
  induction n as [|n IH]; simpl; intros H; [lia|]. destruct (decide (w = n)) as [->|].
  - rewrite (cnt_ext (fun u => f (fset n p g u)) (fun u => f (g u)) n).
    + unfold fset. rewrite decide_True by done. lia.
    + intros u Hu. unfold fset. rewrite decide_False by lia. done.
  - assert (fset w p g n = g n) as -> by (unfold fset; rewrite decide_False by lia; done). specialize (IH ltac:(lia)). lia.
Qed.

Section Life.
Context (n : nat) (unit : bool) (client : nat -> bool) (Hn : 0 < n) (Hu : unit = true -> n = 1).
Notation step := (step n unit client).
Notation worker := (worker n unit).
Notation master := (master n unit).
Notation other := (other n unit client).
Notation held := (held unit).

(** Has not yet reached the first latch; not yet the second; not yet gone. *)
Definition fresh (p : wp) : bool := match p with W0 | WInit | WField | WArrive => true | _ => false end.
Definition inside (p : wp) : bool := match p with WWaitS | WNull | WFinal | WDrop | WExit => false | _ => true end.
Definition stays (p : wp) : bool := match p with WExit => false | _ => true end.

Definition wok (s : st) (w : nat) : Prop :=
  match wpc s w with
  | W0 | WInit => ctx s w = CNone /\ fld s w = false
  | WField => ctx s w = CLive /\ fld s w = false
  | WArrive => ctx s w = CLive /\ fld s w = true
  | WWait => ctx s w = CLive /\ fld s w = true /\ unit = false
  | WLoop | WRun => ctx s w = CLive /\ fld s w = true /\ start s = 0
  | WPush d | WNotify d => ctx s w = CLive /\ fld s w = true /\ start s = 0 /\ d < n
  | WSetStop | WArrS | WWaitS => ctx s w = CLive /\ fld s w = true /\ start s = 0 /\ stop s = true /\ unit = false
  | WNull => ctx s w = CLive /\ fld s w = true /\ start s = 0 /\ stop s = true /\ unit = false /\ stopl s = 0
  | WFinal => ctx s w = CLive /\ fld s w = unit /\ start s = 0 /\ stop s = true /\ (unit = true \/ stopl s = 0)
  | WDrop | WExit => ctx s w = CDead /\ fld s w = unit /\ start s = 0 /\ stop s = true /\ (unit = true \/ stopl s = 0)
  end.

Definition the_view : list (option nat) := if unit then [] else map Some (seq 0 n).
Definition mok (s : st) : Prop :=
  match mpc s with
  | MCtx _ | MDist => unit = false /\ (forall w, w < n -> wpc s w = W0) /\ stop s = false /\ view s = []
  | MThr i => i <= n /\ (forall w, w < n -> (wpc s w = W0 <-> i <= w)) /\ stop s = false /\ view s = []
  | MArrive => (forall w, w < n -> wpc s w <> W0) /\ stop s = false /\ view s = [] /\ unit = false
  | MWait => (forall w, w < n -> wpc s w <> W0) /\ stop s = false /\ view s = []
  | MView i => (forall w, w < n -> wpc s w <> W0) /\ stop s = false /\ i <= n /\ view s = map Some (seq 0 i) /\ start s = 0 /\ unit = false
  | MAlive | MStop => (forall w, w < n -> wpc s w <> W0) /\ stop s = false /\ view s = the_view /\ start s = 0
  | MJoin i => (forall w, w < n -> wpc s w <> W0) /\ view s = the_view /\ start s = 0 /\ stop s = true /\ i <= n /\ (forall w, w < i -> wpc s w = WExit)
  | MFree | MDone => (forall w, w < n -> wpc s w = WExit) /\ view s = the_view /\ start s = 0 /\ stop s = true
  | MThrown => (forall w, w < n -> wpc s w = W0) /\ stop s = false /\ view s = []
  end.
Definition late (m : mp) : nat := if unit then 0 else match m with MCtx _ | MDist | MThr _ | MArrive | MThrown => 1 | _ => 0 end.
Definition holders (s : st) : nat :=
  match mpc s with MCtx _ | MDist => 1 | MThrown => 0 | MDone => cnt (fun w => stays (wpc s w)) n | _ => 1 + cnt (fun w => stays (wpc s w)) n end.

Record inv (s : st) : Prop := Inv {
  i_w : forall w, w < n -> wok s w;
  i_m : mok s;
  i_start : start s = late (mpc s) + cnt (fun w => fresh (wpc s w)) n;
  i_stopl : stopl s = cnt (fun w => inside (wpc s w)) n \/ unit = true;
  i_refs : refs s = holders s \/ unit = true;
  i_o : forall k, match opc s k with OIdle => True | OPush d | ONotify d => d < n /\ mpc s = MAlive end
}.

Lemma inv_init : inv (init n unit).
Proof.
  constructor.
  - intros w Hw. done.
  - unfold mok, init. simpl. destruct unit; simpl; [split_and!; [lia| |done|done]|done]. intros w Hw. split; [lia|done].
  - unfold late, init. simpl. rewrite cnt_all by done. destruct unit; simpl; [rewrite Hu by done; done|lia].
  - left. simpl. by rewrite cnt_all.
  - unfold holders, init. simpl. destruct unit; [by right|by left].
  - done.
Qed.

(** Who still runs keeps the objects alive. *)
Lemma held_true s w : inv s -> w < n -> wpc s w <> W0 -> wpc s w <> WExit -> held s = true.
Proof.
  intros I Hw H0 H1. unfold LifeModel.held. pose proof (i_m s I) as M. unfold mok in M. destruct unit eqn:EU.
  - destruct (mpc s) eqn:E; try done; exfalso; [by rewrite (proj1 M w Hw) in H1|by rewrite (proj1 M w Hw) in H0].
  - destruct (i_refs s I) as [Hr|?]; [|congruence]. unfold holders in Hr.
    assert (0 < cnt (fun w => stays (wpc s w)) n) as Hc.
    { apply (cnt_ge _ n w Hw). destruct (wpc s w); done. }
    destruct (refs s) as [|r]; [|done]. exfalso. destruct (mpc s) eqn:E; try lia. by rewrite (proj1 M w Hw) in H0.
Qed.

(** Past the first latch everybody has a context; before the second nobody has destroyed theirs. *)
Lemma all_arrived s w : inv s -> start s = 0 -> w < n -> fresh (wpc s w) = false.
Proof.
  intros I H0 Hw. destruct (fresh (wpc s w)) eqn:E; [|done]. exfalso.
  pose proof (cnt_ge (fun w => fresh (wpc s w)) n w Hw E). pose proof (i_start s I). lia.
Qed.
Lemma unit_one w v : unit = true -> w < n -> v < n -> w = v.
Proof. intros E ??. specialize (Hu E). lia. Qed.

Lemma ready_of s w v : inv s -> w < n -> v < n -> start s = 0 -> inside (wpc s w) = true -> ready s v.
Proof.
  intros I Hw Hv H0 Hin. pose proof (all_arrived s v I H0 Hv) as Hf. pose proof (i_w s I v Hv) as W. unfold wok in W.
  assert (inside (wpc s v) = true \/ wpc s v = WWaitS) as Hiv.
  { assert (unit = true \/ unit = false) as [EU|EU] by (clear; destruct unit; auto).
    - left. rewrite <- (unit_one w v); done.
    - destruct (i_stopl s I) as [Hl|?]; [|congruence].
      pose proof (cnt_ge (fun w => inside (wpc s w)) n w Hw Hin) as Hc.
      destruct (wpc s v) eqn:Ev; try (by left); try (by right); exfalso; rewrite EU in W; intuition (congruence || lia). }
  unfold ready. destruct (wpc s v); try done; try (destruct Hiv as [?|?]; done); naive_solver.
Qed.
Lemma ready_stop s v : inv s -> v < n -> start s = 0 -> stop s = false -> ready s v.
Proof.
  intros I Hv H0 Hst. pose proof (all_arrived s v I H0 Hv) as Hf. pose proof (i_w s I v Hv) as W. unfold wok in W.
  unfold ready. destruct (wpc s v); try done; try (rewrite Hst in W); naive_solver.
Qed.
Lemma ready_alive s v : inv s -> v < n -> mpc s = MAlive -> ready s v.
Proof. intros I Hv E. pose proof (i_m s I) as M. unfold mok in M. rewrite E in M. apply ready_stop; naive_solver. Qed.

Lemma live_ok s d k : ready s d -> live d s k = k.
Proof. intros [E _]. unfold live. by rewrite E. Qed.
Lemma thru_ok s w d k : inv s -> w < n -> wpc s w <> W0 -> wpc s w <> WExit -> ready s d -> thru unit d s k = k.
Proof. intros I Hw H0 H1 [E1 E2]. unfold thru. rewrite (held_true s w I Hw H0 H1), E2. simpl. unfold live. by rewrite E1. Qed.

(** ** Nothing undefined *)
Lemma worker_defined w a f s : inv s -> w < n -> worker w a f s <> Undef.
Proof.
  intros I Hw. pose proof (i_w s I w Hw) as W. unfold wok in W. unfold LifeModel.worker.
  assert (wpc s w <> W0 -> wpc s w <> WExit -> held s = true) as Hh by (intros; by apply (held_true s w)).
  destruct (wpc s w) eqn:Ew; try done; try rewrite Hh by done; try (by repeat case_match);
    try (by repeat case_decide).
  - destruct a as [|v got| |d|]; try done.
    + rewrite (thru_ok s w w); try done; try (by rewrite Ew). apply (ready_of s w w); try done; try (by rewrite Ew); naive_solver.
    + case_decide as D; [|done]. rewrite (thru_ok s w v); try done; try (by rewrite Ew). apply (ready_of s w v); try done; try (by rewrite Ew); naive_solver.
  - rewrite live_ok; [done|]. apply (ready_of s w d); try done; try (by rewrite Ew); naive_solver.
  - rewrite live_ok; [done|]. apply (ready_of s w d); try done; try (by rewrite Ew); naive_solver.
  - unfold live. by rewrite (proj1 W).
Qed.
Lemma other_defined k d s : inv s -> call_allowed n s k d -> other k d s <> Undef.
Proof.
  intros I Hc. unfold LifeModel.other. pose proof (i_o s I k) as O. destruct (opc s k) as [|e|e] eqn:E.
  - destruct (Hc E) as [Hm Hd]. specialize (Hd Hn). destruct (client k); [|by rewrite decide_True].
    unfold usable. rewrite Hm. rewrite bool_decide_true by done. simpl.
    pose proof (i_m s I) as M. unfold mok in M. rewrite Hm in M.
    destruct (ready_alive s d I Hd Hm) as [R1 R2]. unfold thru, live.
    assert (held s = true) as ->.
    { apply (held_true s d I Hd); [by apply M|]. intros E2. pose proof (i_w s I d Hd) as W. unfold wok in W. rewrite E2 in W. destruct W as (_ & _ & _ & W & _), M as (_ & M & _). congruence. }
    by rewrite R1, R2.
  - rewrite live_ok; [done|]. apply ready_alive; naive_solver.
  - rewrite live_ok; [done|]. apply ready_alive; naive_solver.
Qed.
Lemma step_defined l s : inv s -> careful n l s -> step l s <> Undef.
Proof.
  intros I Hc. destruct l as [f|w a f|k d|]; simpl.
  - unfold LifeModel.master, throw. repeat case_match; done.
  - case_decide; [|done]. by apply worker_defined.
  - by apply other_defined.
  - by destruct (mpc s).
Qed.

(** ** The invariant is preserved *)
Lemma fset_eq {B} i (x : B) f : fset i x f i = x.
Proof. unfold fset. by rewrite decide_True. Qed.
Lemma fset_ne {B} i j (x : B) f : j <> i -> fset i x f j = f j.
Proof. intros. unfold fset. by rewrite decide_False. Qed.

(** A step of worker [w] that goes to [p]. *)
Lemma worker_keeps s s' w p : inv s -> w < n -> wpc s w <> W0 -> wpc s w <> WExit -> p <> W0 ->
  wpc s' = fset w p (wpc s) -> mpc s' = mpc s -> opc s' = opc s -> view s' = view s ->
  (forall v, v <> w -> ctx s' v = ctx s v /\ fld s' v = fld s v) ->
  wok s' w ->
  start s' + (if fresh (wpc s w) then 1 else 0) = start s + (if fresh p then 1 else 0) ->
  (stopl s' + (if inside (wpc s w) then 1 else 0) = stopl s + (if inside p then 1 else 0) \/ unit = true) ->
  (refs s' + (if stays (wpc s w) then 1 else 0) = refs s + (if stays p then 1 else 0) \/ unit = true) ->
  (fresh p = true -> fresh (wpc s w) = true) -> (inside p = true -> inside (wpc s w) = true) ->
  (stop s' = stop s \/ (stop s = true /\ stop s' = true)) ->
  inv s'.
Proof.
  intros I Hw H0 H1 Hp Ew Em Eo Ev Eoth Hok Hst Hsl Hrf Hf Hin Hstop.
  assert (start s = 0 -> start s' = 0) as Hs0.
  { intros E. pose proof (all_arrived s w I E Hw) as Ef. rewrite Ef in *. destruct (fresh p); [by specialize (Hf eq_refl)|lia]. }
  assert (stopl s = 0 -> unit = true \/ stopl s' = 0) as Hl0.
  { intros E. destruct (i_stopl s I) as [Hc|?]; [|by left]. destruct Hsl as [Hsl|?]; [|by left]. right.
    destruct (inside (wpc s w)) eqn:Ei; [pose proof (cnt_ge (fun u => inside (wpc s u)) n w Hw Ei); lia|].
    destruct (inside p); [by specialize (Hin eq_refl)|lia]. }
  assert (stopl s = 0 -> unit = false -> stopl s' = 0) as Hl1 by (intros E E'; destruct (Hl0 E); congruence).
  assert (unit = true \/ stopl s = 0 -> unit = true \/ stopl s' = 0) as Hl2 by (intros [?|?]; auto).
  assert (stop s' = stop s) as Hst' by (destruct Hstop as [?|[??]]; congruence).
  constructor.
  - intros v Hv. destruct (decide (v = w)) as [->|Hne]; [done|]. pose proof (i_w s I v Hv) as W. unfold wok in W |- *.
    rewrite (proj1 (Eoth v Hne)), (proj2 (Eoth v Hne)), Ew, fset_ne, Hst' by done. clear - W Hs0 Hl1 Hl2.
    destruct (wpc s v); try done; destruct_and?; split_and?; auto.
  - pose proof (i_m s I) as M. unfold mok in M |- *. rewrite Em, Ev, Hst'.
    assert (forall u, u < n -> wpc s u <> W0 -> wpc s' u <> W0) as A1.
    { intros u Hu' Hx. rewrite Ew. destruct (decide (u = w)) as [->|]; [by rewrite fset_eq|by rewrite fset_ne]. }
    clear Hok. destruct (mpc s) eqn:E; try (by intuition eauto).
    + destruct M as (_ & M & _). by rewrite M in H0.
    + destruct M as (_ & M & _). by rewrite M in H0.
    + destruct M as (Mi & M & M'). split; [done|split; [|done]]. intros u Hu'. rewrite Ew. destruct (decide (u = w)) as [->|]; [|rewrite fset_ne by done; by apply M].
      rewrite fset_eq. specialize (M w Hw). split; [done|]. intros Hle. by apply M in Hle.
    + destruct M as (M0 & M1 & M2 & M3 & M4 & M5). split_and!; try done; auto. intros u Hu'. rewrite Ew. destruct (decide (u = w)) as [->|]; [|rewrite fset_ne by done; by apply M5].
      by rewrite M5 in H1.
    + destruct M as (M & _). by rewrite M in H1.
    + destruct M as (M & _). by rewrite M in H1.
    + destruct M as (M & _). by rewrite M in H0.
  - rewrite Em, Ew. pose proof (cnt_set fresh (wpc s) w p n Hw). pose proof (i_start s I). lia.
  - destruct Hsl as [Hsl|?]; [|by right]. destruct (i_stopl s I) as [Hc|?]; [|by right]. left.
    rewrite Ew. pose proof (cnt_set inside (wpc s) w p n Hw). lia.
  - destruct Hrf as [Hrf|?]; [|by right]. destruct (i_refs s I) as [Hc|?]; [|by right]. left.
    pose proof (i_m s I) as M. unfold mok in M. unfold holders in *. rewrite Em, Ew. pose proof (cnt_set stays (wpc s) w p n Hw).
    destruct (mpc s) eqn:E; try lia.
    + destruct M as (_ & M & _). by rewrite M in H0.
    + destruct M as (_ & M & _). by rewrite M in H0.
    + destruct M as (M & _). by rewrite M in H0.
  - rewrite Eo, Em. apply I.
Qed.

Ltac wk s w Ew p :=
  apply (worker_keeps s _ w p); [done|done|by rewrite Ew|by rewrite Ew|done|reflexivity|reflexivity|reflexivity|reflexivity|
    intros ? ?; simpl; rewrite ?fset_ne by done; done|unfold wok; simpl; rewrite ?fset_eq; destruct_and?; split_and?; auto|
    rewrite Ew; simpl; try lia|rewrite Ew; simpl; try (left; lia)|rewrite Ew; simpl; try (left; lia)|by rewrite Ew|by rewrite Ew|simpl; auto].

Lemma worker_inv w a f s s' : inv s -> w < n -> worker w a f s = Next s' -> inv s'.
Proof.
  intros I Hw Hs. pose proof (i_w s I w Hw) as W. unfold wok in W. unfold LifeModel.worker in Hs.
  pose proof (i_start s I) as Hstart.
  assert (wpc s w <> W0 -> wpc s w <> WExit -> held s = true) as Hh by (intros; by apply (held_true s w)).
  assert (wpc s w <> W0 -> wpc s w <> WExit -> 0 < refs s \/ unit = true) as Hr.
  { intros H0 H1. specialize (Hh H0 H1). unfold LifeModel.held in Hh. destruct unit; [by right|]. destruct (refs s); [done|left; lia]. }
  assert (inside (wpc s w) = true -> 0 < stopl s \/ unit = true) as Hl.
  { intros Hi. destruct (i_stopl s I) as [Hc|?]; [left|by right]. pose proof (cnt_ge (fun u => inside (wpc s u)) n w Hw Hi). lia. }
  assert (fresh (wpc s w) = true -> 0 < start s) as Hf.
  { intros Hi. pose proof (cnt_ge (fun u => fresh (wpc s u)) n w Hw Hi). lia. }
  assert (unit = true -> start s - 1 = 0) as Hf1.
  { intros E. pose proof (cnt_le (fun u => fresh (wpc s u)) n). specialize (Hu E). unfold late in Hstart. rewrite E in Hstart. lia. }
  destruct (wpc s w) eqn:Ew; try done; try rewrite Hh in Hs by done.
  - destruct f; [done|]. injection Hs as <-. wk s w Ew WField.
  - destruct f; [done|]. injection Hs as <-. wk s w Ew WArrive.
  - injection Hs as <-. assert (unit = true \/ unit = false) as [EU|EU] by (clear; destruct unit; auto); rewrite EU.
    + wk s w Ew WLoop. specialize (Hf eq_refl); lia.
    + wk s w Ew WWait. specialize (Hf eq_refl); lia.
  - case_decide; [|done]. injection Hs as <-. wk s w Ew WLoop.
  - destruct a as [|v got| |d|]; try done.
    + unfold thru, live in Hs. rewrite Hh in Hs by done. destruct W as (W1 & W2 & W3). rewrite W1, W2 in Hs. simpl in Hs. injection Hs as <-.
      destruct (todo s w); [wk s w Ew WLoop|wk s w Ew WRun].
    + case_decide; [|done]. unfold thru, live in Hs. destruct (held s && fld s v); [|done]. destruct (ctx s v); try done. injection Hs as <-.
      destruct got; [wk s w Ew WRun|wk s w Ew WLoop].
    + injection Hs as <-. destruct (stop s) eqn:Es; [|wk s w Ew WLoop].
      assert (unit = true \/ unit = false) as [EU|EU] by (clear; destruct unit; auto); rewrite EU; [wk s w Ew WFinal|wk s w Ew WSetStop].
      all: try congruence; try (by right).
  - destruct a; try done; [case_decide; [|done]|]; injection Hs as <-; [wk s w Ew (WPush d)|wk s w Ew WLoop].
  - unfold live in Hs. destruct (ctx s d); try done. injection Hs as <-. wk s w Ew (WNotify d).
  - unfold live in Hs. destruct (ctx s d); try done. injection Hs as <-. wk s w Ew WRun.
  - injection Hs as <-. wk s w Ew WArrS. right. split; [by apply W|done].
  - injection Hs as <-. wk s w Ew WWaitS. destruct (Hl eq_refl); [left; lia|by right].
  - case_decide; [|done]. injection Hs as <-. wk s w Ew WNull.
  - injection Hs as <-. wk s w Ew WFinal. 
  - unfold live in Hs. destruct (ctx s w); try done. injection Hs as <-. wk s w Ew WDrop.
  - injection Hs as <-. wk s w Ew WExit. destruct Hr as [?|?]; [done|done|left; lia|by right].
Qed.

(** A step of the master that starts no thread. *)
Lemma master_keeps s s' : inv s ->
  wpc s' = wpc s -> opc s' = opc s -> ctx s' = ctx s -> fld s' = fld s -> stopl s' = stopl s ->
  (stop s = true -> stop s' = true) -> (start s = 0 -> start s' = 0) ->
  mok s' -> start s' + late (mpc s) = start s + late (mpc s') -> (refs s' = holders s' \/ unit = true) ->
  ((forall k, opc s k = OIdle) \/ mpc s' = mpc s \/ mpc s <> MAlive) -> inv s'.
Proof.
  intros I Ew Eo Ec Ef El Hst Hs0 Hm Hl Hr Ho. constructor.
  - intros w Hw. pose proof (i_w s I w Hw) as W. unfold wok in W |- *. rewrite Ew, Ec, Ef, El. clear - W Hst Hs0.
    destruct (wpc s w); try done; destruct_and?; split_and?; auto.
  - done.
  - rewrite Ew. pose proof (i_start s I). lia.
  - rewrite El, Ew. apply I.
  - done.
  - intros k. rewrite Eo. pose proof (i_o s I k) as O. destruct Ho as [Ho|[Ho|Ho]]; [by rewrite Ho|by rewrite Ho|].
    destruct (opc s k); [done| |]; by destruct O.
Qed.

Ltac mk s Em :=
  apply (master_keeps s); [done|reflexivity|reflexivity|reflexivity|reflexivity|reflexivity|simpl; try done; try (by auto)|simpl; try done; try (by auto)|
    unfold mok; simpl; split_and?; try done; try lia; try (by auto)|rewrite Em; simpl; unfold late; try lia; try (by auto)|
    unfold holders; simpl; try (by auto)|rewrite Em; simpl; try (by auto)].

Lemma master_inv f s s' : inv s -> master f s = Next s' -> inv s'.
Proof.
  intros I Hs. pose proof (i_m s I) as M. unfold mok in M. unfold LifeModel.master, throw in Hs.
  pose proof (i_start s I) as Hstart. pose proof (i_refs s I) as Hrefs. unfold holders in Hrefs.
  destruct (mpc s) eqn:Em; try done.
  - destruct M as (M0 & M1 & M2 & M3). case_decide; [destruct f|]; injection Hs as <-; mk s Em.
  - destruct M as (M0 & M1 & M2 & M3). destruct f; injection Hs as <-; mk s Em.
    + intros w Hw. split; [lia|]. intros _. by apply M1.
    + left. rewrite cnt_all; [done|]. intros w Hw. by rewrite (M1 w Hw).
  - destruct M as (M0 & M1 & M2 & M3). case_decide as D.
    + destruct f.
      * assert (unit = true \/ unit = false) as [EU|EU] by (clear; destruct unit; auto); rewrite EU in Hs; [|done].
        injection Hs as <-. pose proof (Hu EU). mk s Em; rewrite ?EU; auto. intros w Hw. apply M1; lia.
      * injection Hs as <-. assert (wpc s i = W0) as Ei by (by apply M1). pose proof (i_w s I i D) as W. unfold wok in W. rewrite Ei in W.
        constructor.
        -- intros w Hw. pose proof (i_w s I w Hw) as W'. unfold wok in W' |- *. simpl. destruct (decide (w = i)) as [->|].
           ++ by rewrite fset_eq.
           ++ by rewrite fset_ne.
        -- unfold mok. simpl. split_and!; [lia| |done|done]. intros w Hw. destruct (decide (w = i)) as [->|].
           ++ rewrite fset_eq. split; [done|lia].
           ++ rewrite fset_ne by done. rewrite (M1 w Hw). lia.
        -- simpl. pose proof (cnt_set fresh (wpc s) i WInit n D) as Hc. rewrite Ei in Hc. simpl in Hc. unfold late in *. lia.
        -- destruct (i_stopl s I) as [Hl|?]; [left|by right]. simpl.
           pose proof (cnt_set inside (wpc s) i WInit n D) as Hc. rewrite Ei in Hc. simpl in Hc. lia.
        -- destruct Hrefs as [Hr|?]; [left|by right]. simpl. unfold holders. simpl.
           pose proof (cnt_set stays (wpc s) i WInit n D) as Hc. rewrite Ei in Hc. simpl in Hc. lia.
        -- intros k. pose proof (i_o s I k) as O. simpl. destruct (opc s k); [done| |]; destruct O; congruence.
    + injection Hs as <-. assert (i = n) as -> by lia.
      assert (forall w, w < n -> wpc s w <> W0) as M4 by (intros w Hw E; apply M1 in E; lia).
      assert (unit = true \/ unit = false) as [EU|EU] by (clear; destruct unit; auto); rewrite EU; mk s Em; rewrite EU; auto.
  - destruct M as (M0 & M1 & M2 & M3). injection Hs as <-. mk s Em.
    + intros E. by rewrite E.
    + unfold late in Hstart. rewrite M3 in Hstart |- *. lia.
  - destruct M as (M0 & M1 & M2). case_decide as D; [|done]. injection Hs as <-.
    assert (unit = true \/ unit = false) as [EU|EU] by (clear; destruct unit; auto); rewrite EU; mk s Em; try (unfold the_view; by rewrite EU); rewrite ?EU; auto.
  - destruct M as (M0 & M1 & M2 & M3 & M4 & M5). case_decide as D; [destruct f; [done|]|]; injection Hs as <-; mk s Em.
    + rewrite M3. assert (fld s i = true) as -> by (by apply ready_stop). change (map Some (seq 0 i) ++ [Some i] = map Some (seq 0 (S i))). by rewrite seq_S, map_app.
    + unfold the_view. rewrite M5, M3. f_equal. f_equal. lia.
  - destruct M as (M0 & M1 & M2 & M3). injection Hs as <-. mk s Em.
  - destruct M as (M0 & M1 & M2 & M3 & M4 & M5). case_decide as D.
    + destruct (wpc s i) eqn:Ei; try done. injection Hs as <-. mk s Em.
      intros w Hw. destruct (decide (w = i)) as [->|]; [done|]. apply M5. lia.
    + injection Hs as <-. mk s Em. intros w Hw. apply M5. lia.
  - destruct M as (M0 & M1 & M2 & M3). injection Hs as <-. mk s Em. destruct Hrefs as [Hr|?]; [left; lia|by right].
Qed.

Lemma other_inv k d s s' : inv s -> call_allowed n s k d -> other k d s = Next s' -> inv s'.
Proof.
  intros I Hc Hs. pose proof (i_o s I) as O.
  assert (exists p t, s' = St (mpc s) (wpc s) (fset k p (opc s)) (ctx s) (fld s) (start s) (stopl s) (stop s) (refs s) t (view s) /\
    match p with OIdle => True | OPush d | ONotify d => d < n /\ mpc s = MAlive end) as (p & t & -> & Hp).
  { unfold LifeModel.other in Hs. specialize (O k). destruct (opc s k) as [|e|e] eqn:Ek.
    - destruct (Hc Ek) as [Hm Hd]. specialize (Hd Hn). exists (OPush d), (todo s). split; [|done]. destruct (client k).
      + destruct (usable s && bool_decide (d < n)); [|done]. unfold thru, live in Hs. destruct (held s && fld s d); [|done].
        destruct (ctx s d); try done. by injection Hs as <-.
      + case_decide; [|done]. by injection Hs as <-.
    - unfold live in Hs. destruct (ctx s e); try done. injection Hs as <-. by exists (ONotify e), (fset e (S (todo s e)) (todo s)).
    - unfold live in Hs. destruct (ctx s e); try done. injection Hs as <-. by exists OIdle, (todo s). }
  constructor; try apply I. intros u. simpl. destruct (decide (u = k)) as [->|]; [by rewrite fset_eq|rewrite fset_ne by done; apply O].
Qed.

Lemma step_inv l s s' : inv s -> careful n l s -> step l s = Next s' -> inv s'.
Proof.
  intros I Hc Hs. destruct l as [f|w a f|k d|]; simpl in Hs, Hc.
  - by eapply master_inv.
  - case_decide; [|done]. by eapply worker_inv.
  - by eapply other_inv.
  - destruct (mpc s) eqn:Em; try done. injection Hs as <-. pose proof (i_m s I) as M. unfold mok in M. rewrite Em in M. destruct_and?.
    pose proof (i_refs s I) as Hr. unfold holders in Hr. rewrite Em in Hr. mk s Em.
Qed.
Lemma reach_inv s : reach n unit client (careful n) s -> inv s.
Proof. induction 1; [apply inv_init|by eapply step_inv]. Qed.
End Life.
