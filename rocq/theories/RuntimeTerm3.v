(** * Termination of the runtime: the invariant in reachable states, and well-foundedness. *)

From stdpp Require Import prelude gmap list.
From Coq Require Import NArith Lia Wellfounded Relation_Operators.
From Verif Require Import RuntimeModel RuntimeSpec RuntimeInv RuntimeSafe RuntimeHist RuntimeHist2
  RuntimeHist3 RuntimeHist4 RuntimeThms RuntimeTermSpec RuntimeTermOrder RuntimeTerm RuntimeTerm2.
Local Open Scope N_scope.

Section t3.
Context (af : bool).

Definition accs (M : gmap N node) : Prop := forall f n, M !! f = Some n -> Acc (nless af) n.

Lemma vals_elem (M : gmap N node) n : n ∈ vals M <-> exists f, M !! f = Some n.
Proof.
  unfold vals. rewrite elem_of_list_fmap. split.
  - intros ((f & x) & -> & Hp). apply elem_of_map_to_list in Hp. by exists f.
  - intros (f & Hf). exists (f, n). split; [done|]. by apply elem_of_map_to_list.
Qed.

Lemma accs_gless M' M : gless (nless af) M' M -> accs M -> accs M'.
Proof.
  intros (x & Y & K & E1 & E2 & E3) HM f n Hf.
  assert (Hall : forall z, z ∈ vals M -> Acc (nless af) z) by (intros z (g & Hg)%vals_elem; eauto).
  assert (Hn : n ∈ vals M') by (apply vals_elem; eauto). rewrite E2 in Hn. apply elem_of_app in Hn as [Hn|Hn].
  - apply E3 in Hn. eapply Acc_inv; [|exact Hn]. apply Hall. rewrite E1. by left.
  - apply Hall. rewrite E1. by right.
Qed.

Lemma accs_below M' M : below af M' M -> accs M -> accs M'.
Proof. induction 1; [by apply accs_gless|auto]. Qed.

Lemma below_empty M' : ~ below af M' ∅.
Proof.
  intros H. remember (∅ : gmap N node) as E eqn:HE. induction H as [M' M (x & Y & K & E1 & _)|]; subst; [|auto].
  unfold vals in E1. rewrite map_to_list_empty in E1. cbn in E1. by apply Permutation_nil_cons in E1.
Qed.

(** A root stays a root. *)
Lemma root_evs l h f t :
  evs_ok af (l ++ h) -> parent_in f h = None -> body_in f h = Some t ->
  parent_in f (l ++ h) = None /\ body_in f (l ++ h) = Some t.
Proof.
  intros Hok Hp Hb. induction l as [|e l IH]; [done|]. cbn [app] in *. destruct Hok as (He & Hok).
  destruct (IH Hok) as (Hp' & Hb'). destruct e; cbn in *; try done.
  - rewrite decide_False; [done|]. intros ->. by rewrite He in Hb'.
  - destruct He as (_ & He & _). rewrite !decide_False; [done|intros ->; by rewrite He in Hb'..].
  - destruct He as (_ & He & _). rewrite !decide_False; [done|intros ->; by rewrite He in Hb'..].
Qed.

Definition roots_end (h : list event) : Prop :=
  forall f t, parent_in f h = None -> body_in f h = Some t -> terminates af t.

Lemma roots_end_mono l h : evs_ok af (l ++ h) -> roots_end (l ++ h) -> roots_end h.
Proof. intros Hok H f t Hp Hb. destruct (root_evs l h f t Hok Hp Hb). eauto. Qed.

Lemma reach_ti nw s h : reach nw af s h -> roots_end h -> exists M, ti af M s h /\ accs M.
Proof.
  induction 1 as [|s h l s' tr HR IH HA E]; intros HT.
  - exists ∅. split; [|by intros f n; rewrite lookup_empty]. split; [intros f; cbn; by rewrite !lookup_empty|].
    intros f rp X L. by rewrite lookup_empty.
  - pose proof (reach_step _ _ _ _ _ _ _ HR HA E) as HR'. destruct (reach_hist _ _ _ _ HR') as (H' & _).
    pose proof (g_evs _ _ _ H') as Hok. destruct (IH (roots_end_mono _ _ Hok HT)) as (M & HM & Hacc).
    assert (Hgo : fine af M s s' (rev tr ++ h) -> exists M', ti af M' s' (rev tr ++ h) /\ accs M').
    { intros (M' & HM' & [Hb|(-> & _)]); [|by exists M]. exists M'. split; [done|]. by eapply accs_below. }
    destruct l as [i fail|i|i|i v|d t]; try (apply Hgo; by eapply ti_step). clear Hgo.
    cbn [step] in E. unfold spawn in E. destruct (s_workers s !! d) as [wd|]; [|done]. injection E as <- <-.
    cbn [rev app] in *. destruct (reach_hist _ _ _ _ HR) as (H & _).
    destruct (g_new _ _ _ H (s_nextf s)) as (Hn1 & Hn2 & Hn3 & Hn4 & Hn5 & Hn6 & _); [lia|].
    set (c := s_nextf s) in *. exists (<[c := (RRun t, fun _ => False, [])]> M). split; [split|].
    + intros f. cbn. destruct (decide (c = f)) as [<-|]; [by rewrite !lookup_insert|].
      rewrite !lookup_insert_ne by done. apply HM.
    + intros f rp X L Hf. destruct (decide (c = f)) as [<-|].
      * rewrite lookup_insert in Hf. injection Hf as <- <- <-. by apply env_fresh.
      * rewrite lookup_insert_ne in Hf by done. apply (ti_env _ _ _ _ HM) in Hf.
        apply (env_ev af (EvSpawn c t)); [by destruct Hok|cbn; tauto|done].
    + intros f n Hf. destruct (decide (c = f)) as [<-|].
      * rewrite lookup_insert in Hf. injection Hf as <-. apply halts_acc. apply (HT c t); cbn; [done|].
        by rewrite decide_True.
      * rewrite lookup_insert_ne in Hf by done. by eapply Hacc.
Qed.

Lemma moves_reach nw x x' : reach nw af x.1 x.2 -> moves nw af x x' -> reach nw af x'.1 x'.2.
Proof. intros HR (l & tr & HA & _ & E & ->). by eapply reach_step. Qed.

Lemma moves_fine nw M x x' : reach nw af x.1 x.2 -> ti af M x.1 x.2 -> moves nw af x x' -> fine af M x.1 x'.1 x'.2.
Proof. intros HR HT (l & tr & HA & Hl & E & ->). by eapply ti_step. Qed.

Lemma acc_moves nw M : Acc (below af) M -> forall x, reach nw af x.1 x.2 -> ti af M x.1 x.2 ->
  Acc (fun y x => moves nw af x y) x.
Proof.
  induction 1 as [M _ IH]. intros x. remember (rank x.1) as n eqn:En. revert x En.
  induction (N.lt_wf_0 n) as [n _ IHn]. intros x -> HR HT. constructor. intros y Hy.
  destruct (moves_fine _ _ _ _ HR HT Hy) as (M' & HT' & HC). pose proof (moves_reach _ _ _ HR Hy) as HR'.
  destruct HC as [Hb|(-> & Hlt)]; [by apply (IH M')|by apply (IHn (rank y.1))].
Qed.

Lemma moves_acc nw x : reach nw af x.1 x.2 -> roots_end x.2 -> Acc (fun y x => moves nw af x y) x.
Proof.
  intros HR HT. destruct (reach_ti _ _ _ HR HT) as (M & HM & Hacc). eapply (acc_moves nw M); [|done..].
  apply Acc_clos_trans. apply acc_gless. exact Hacc.
Qed.

(** Once no task is left, none appears. *)
Lemma moves_empty nw x x' :
  reach nw af x.1 x.2 -> moves nw af x x' -> s_frames x.1 = ∅ -> s_frames x'.1 = ∅.
Proof.
  intros HR Hm He. assert (HT : ti af ∅ x.1 x.2).
  { split; [intros f; by rewrite He, !lookup_empty|]. intros f rp X L. by rewrite lookup_empty. }
  destruct (moves_fine _ _ _ _ HR HT Hm) as (M' & [HD _] & [Hb|(-> & _)]); [by apply below_empty in Hb|].
  apply map_eq. intros f. specialize (HD f). rewrite lookup_empty in *. cbn in HD. by destruct (s_frames x'.1 !! f).
Qed.

(** ** Complete executions *)
Section run.
Context (nw : nat) (x : nat -> state * list event).
Hypothesis HL : lasting nw af x.
Hypothesis HR : reach nw af (x 0%nat).1 (x 0%nat).2.

Lemma run_reach n : reach nw af (x n).1 (x n).2.
Proof using HL HR.
  induction n as [|n IH]; [done|]. destruct (la_step _ _ _ HL n) as [->|Hm]; [done|]. by eapply moves_reach.
Qed.

Lemma run_root n f t :
  parent_in f (x 0%nat).2 = None -> body_in f (x 0%nat).2 = Some t ->
  parent_in f (x n).2 = None /\ body_in f (x n).2 = Some t.
Proof using HL HR.
  intros Hp Hb. induction n as [|n IH]; [done|]. destruct IH as (Hp' & Hb').
  destruct (la_step _ _ _ HL n) as [->|(l & tr & _ & _ & _ & E)]; [done|].
  destruct (reach_hist _ _ _ _ (run_reach (S n))) as (H & _). pose proof (g_evs _ _ _ H) as Hok.
  rewrite E in *. by apply root_evs.
Qed.

Lemma run_star n m : (n <= m)%nat -> x m = x n \/ clos_trans _ (fun y x => moves nw af x y) (x m) (x n).
Proof using HL.
  induction 1 as [|m Hle IH]; [by left|]. destruct (la_step _ _ _ HL m) as [->|Hm]; [done|]. right.
  destruct IH as [<-|IH]; [by apply t_step|]. eapply t_trans; [by apply t_step|done].
Qed.

Lemma run_drains n : Acc (fun y x => moves nw af x y) (x n) -> exists m, s_frames (x m).1 = ∅.
Proof using HL HR.
  intros HA. apply Acc_clos_trans in HA. remember (x n) as y eqn:Ey. revert n Ey.
  induction HA as [y _ IH]. intros n ->. destruct (decide (s_frames (x n).1 = ∅)) as [|Hne]; [by exists n|].
  apply map_choose in Hne as (f & fr & Hf).
  destruct (progress _ _ _ _ _ _ (run_reach n) Hf) as (l & s' & tr & Hl & E).
  destruct (la_fair _ _ _ HL n) as (m & Hle & Hm).
  { exists l, s', tr. destruct l; cbn in Hl; try done. by subst. }
  apply (IH (x (S m))) with (n := S m); [|done]. destruct (run_star n m Hle) as [<-|Ht]; [by apply t_step|].
  eapply t_trans; [by apply t_step|done].
Qed.

Lemma run_empty n m : (n <= m)%nat -> s_frames (x n).1 = ∅ -> s_frames (x m).1 = ∅.
Proof using HL HR.
  induction 1 as [|m Hle IH]; [done|]. intros He. destruct (la_step _ _ _ HL m) as [->|Hm]; [auto|].
  eapply moves_empty; [apply (run_reach m)|done|auto].
Qed.
End run.

End t3.
