From stdpp Require Import prelude gmap list.
From Verif Require Import EventuallyModel FutureModel FutureSpec.
Local Notation cell_step := EventuallyModel.step.
Local Notation step := FutureModel.step.

Fixpoint has_got (i : nat) (h : list ev) : bool :=
  match h with
  | EvGot _ j _ :: h' => if decide (i = j) then true else has_got i h'
  | _ :: h' => has_got i h'
  | [] => false
  end.
Fixpoint has_acq (i : nat) (h : list ev) : bool :=
  match h with
  | EvAcquired j :: h' => if decide (i = j) then true else has_acq i h'
  | _ :: h' => has_acq i h'
  | [] => false
  end.
Fixpoint has_sig (i : nat) (h : list ev) : bool :=
  match h with
  | EvSignalled j :: h' => if decide (i = j) then true else has_sig i h'
  | _ :: h' => has_sig i h'
  | [] => false
  end.

Lemma has_got_iff i h : has_got i h = true <-> already_got i h.
Proof.
  unfold already_got. induction h as [|e h IH]; simpl.
  - split; [done|]. intros (x & g & H). by apply elem_of_nil in H.
  - destruct e; try (rewrite IH; setoid_rewrite elem_of_cons; naive_solver).
    destruct (decide (i = i0)) as [->|]; [|rewrite IH; setoid_rewrite elem_of_cons; naive_solver].
    split; [|done]. intros _. setoid_rewrite elem_of_cons. eauto.
Qed.
Lemma has_acq_iff i h : has_acq i h = true <-> EvAcquired i ∈ h.
Proof.
  induction h as [|e h IH]; simpl; [by rewrite elem_of_nil|].
  rewrite elem_of_cons. destruct e; try (rewrite IH; naive_solver). destruct (decide (i = i0)) as [->|]; [naive_solver|].
  rewrite IH. naive_solver.
Qed.
Lemma has_sig_iff i h : has_sig i h = true <-> EvSignalled i ∈ h.
Proof.
  induction h as [|e h IH]; simpl; [by rewrite elem_of_nil|].
  rewrite elem_of_cons. destruct e; try (rewrite IH; naive_solver). destruct (decide (i = i0)) as [->|]; [naive_solver|].
  rewrite IH. naive_solver.
Qed.

(** The shared state at each moment. *)
Definition stored (k : kind) (e : ending) : cell :=
  match e with
  | EndVal v => if decide (k = KRef) then Cell (UPtr (Some v)) (Some SValue) else Cell (UVal (Some v)) (Some SValue)
  | EndVoid => construct (var_of k)
  | EndExc x | EndCtorExc x => Cell (UExc (Some x)) (if decide (k = KVoid) then None else Some SException)
  end.
Definition taken (k : kind) (e : ending) : cell :=
  match e with
  | EndVal v => if decide (k = KRef) then Cell (UPtr (Some v)) (Some SValue) else Cell (UVal None) (Some SValue)
  | EndVoid => construct (var_of k)
  | EndExc x | EndCtorExc x => Cell (UExc None) (if decide (k = KVoid) then None else Some SException)
  end.
Definition cell_at (k : kind) (e : ending) (p : tpc) (s : fstatus) : cell :=
  match p with
  | TRun => construct (var_of k)
  | _ => if decide (s = Retrieved) then taken k e else stored k e
  end.

Lemma cell_at_destroy k e p s : fits k e = true -> is_Some (destroy (var_of k) (cell_at k e p s)).
Proof. destruct k, e, p, s; simpl; try done; intros _; by eexists. Qed.

Definition tb (p : tpc) : nat := match p with TDone => 0 | _ => 1 end.

Definition sem_ok (h : shared) (p : tpc) : Prop :=
  if signalled p then s_sem h = (if decide (s_status h = NoWait) then 1 else 0)
  else s_sem h = 0 /\ s_status h = NoWait.

Inductive obj (hp : option shared) (own : Prop) (gt ac : bool) (e : ending) (p : tpc) : Prop :=
| obj_owned sh :
    own -> hp = Some sh -> fits (s_kind sh) e = true -> s_refs sh = S (tb p) -> sem_ok sh p ->
    gt = bool_decide (s_status sh = Retrieved) -> ac = bool_decide (s_status sh <> NoWait) ->
    s_cell sh = cell_at (s_kind sh) e p (s_status sh) -> obj hp own gt ac e p
| obj_orphan sh :
    ~ own -> hp = Some sh -> fits (s_kind sh) e = true -> s_refs sh = 1 -> p <> TDone ->
    (signalled p = false -> s_sem sh = 0 /\ s_status sh = NoWait) ->
    s_cell sh = cell_at (s_kind sh) e p (s_status sh) -> obj hp own gt ac e p
| obj_gone : ~ own -> hp = None -> p = TDone -> obj hp own gt ac e p.

Definition owned (s : st) (i : nat) : Prop := exists x, f_var s !! x = Some (Some i).

Definition ok (e : ev) (h : list ev) : Prop :=
  match e with
  | EvScheduled x i _ _ => refers x h = None /\ forall y k e', EvScheduled y i k e' ∉ h
  | EvMoved y x => True
  | EvValid x b => b = bool_decide (refers x h <> None)
  | EvBroken x => refers x h = None
  | EvWaited x i => refers x h = Some i /\ EvSignalled i ∈ h
  | EvGot x i g => refers x h = Some i /\ EvSignalled i ∈ h /\ ~ already_got i h /\
                   exists e, ends_with i e h /\ g = delivered e
  | EvEmptyFuture x i => refers x h = Some i /\ EvSignalled i ∈ h /\ already_got i h
  | EvDetached x => True
  | EvDestroyed x None => refers x h = None
  | EvDestroyed x (Some i) => refers x h = Some i /\ EvSignalled i ∈ h
  | EvAcquired i => EvSignalled i ∈ h /\ EvAcquired i ∉ h
  | EvSignalled i => EvSignalled i ∉ h
  | EvFreed i => EvSignalled i ∈ h /\ (forall y, refers y h <> Some i)
  end.
Fixpoint good (h : list ev) : Prop := match h with [] => True | e :: h' => ok e h' /\ good h' end.

Record inv (s : st) (h : list ev) : Prop := {
  i_refers : forall x, refers x h = mjoin (f_var s !! x);
  i_uniq : forall x y i, f_var s !! x = Some (Some i) -> f_var s !! y = Some (Some i) -> x = y;
  i_owntask : forall x i, f_var s !! x = Some (Some i) -> is_Some (f_task s !! i);
  i_heaptask : forall i sh, f_heap s !! i = Some sh -> is_Some (f_task s !! i);
  i_obj : forall i e p, f_task s !! i = Some (e, p) ->
     obj (f_heap s !! i) (owned s i) (has_got i h) (has_acq i h) e p;
  i_sig : forall i e p, f_task s !! i = Some (e, p) -> has_sig i h = signalled p;
  i_ends : forall i e p, f_task s !! i = Some (e, p) -> ends_with i e h;
  i_new : forall i, f_task s !! i = None ->
     has_got i h = false /\ has_acq i h = false /\ has_sig i h = false /\ forall y k e', EvScheduled y i k e' ∉ h;
  i_acq : forall t x k, pc s t = CAcquire x k ->
     exists i sh, f_var s !! x = Some (Some i) /\ f_heap s !! i = Some sh /\ s_status sh = NoWait;
  i_read : forall t x, pc s t = CRead x ->
     exists i sh, f_var s !! x = Some (Some i) /\ f_heap s !! i = Some sh /\ s_status sh <> NoWait;
  i_thr : forall t t' x, uses (pc s t) = Some x -> uses (pc s t') = Some x -> t = t';
  i_good : good h;
}.

Lemma init_inv : inv init [].
Proof.
  assert (Hpc : forall t, pc init t = CIdle) by (intros t; unfold pc; simpl; by rewrite lookup_empty).
  split; intros; try rewrite !Hpc in *; cbn in *; rewrite ?lookup_empty in *; try done.
  repeat split; try done. intros y k e H'. by apply elem_of_nil in H'.
Qed.

Lemma in_use_false s x : in_use s x = false -> forall t, uses (pc s t) <> Some x.
Proof.
  unfold in_use, pc. intros H t Hu. destruct (f_thr s !! t) as [p|] eqn:E; simpl in Hu; [|done].
  apply not_true_iff_false in H. apply H. apply existsb_exists. exists (t, p).
  split; [|by apply bool_decide_eq_true]. apply elem_of_list_In. by apply elem_of_map_to_list.
Qed.

Lemma pc_set t p s t' : pc (set_pc t p s) t' = if decide (t' = t) then p else pc s t'.
Proof.
  unfold pc, set_pc. simpl. destruct (decide (t' = t)) as [->|]; [by rewrite lookup_insert|].
  by rewrite lookup_insert_ne.
Qed.

Lemma obj_owned_inv s h i e p sh :
  inv s h -> f_task s !! i = Some (e, p) -> owned s i -> f_heap s !! i = Some sh ->
  fits (s_kind sh) e = true /\ s_refs sh = S (tb p) /\ sem_ok sh p /\
  has_got i h = bool_decide (s_status sh = Retrieved) /\ has_acq i h = bool_decide (s_status sh <> NoWait) /\
  s_cell sh = cell_at (s_kind sh) e p (s_status sh).
Proof.
  intros Hi Ht Ho Hh. destruct (i_obj s h Hi i e p Ht) as [sh' H1 H2|sh' H1|H1]; try done.
  rewrite Hh in H2. injection H2 as ->. by repeat split.
Qed.
Lemma owned_heap s h x i : inv s h -> f_var s !! x = Some (Some i) ->
  exists sh e p, f_heap s !! i = Some sh /\ f_task s !! i = Some (e, p).
Proof.
  intros Hi Hx. destruct (i_owntask s h Hi x i Hx) as [[e p] Ht].
  assert (owned s i) by (by exists x).
  destruct (i_obj s h Hi i e p Ht) as [sh' H1 H2|sh' H1|H1]; try done. by exists sh', e, p.
Qed.

Lemma status_sig s h x i sh : inv s h -> f_var s !! x = Some (Some i) -> f_heap s !! i = Some sh ->
  s_status sh <> NoWait -> has_sig i h = true.
Proof.
  intros Hi Hx Hh Hs. destruct (owned_heap s h x i Hi Hx) as (sh' & e & p & Hh' & Ht). simplify_eq.
  destruct (obj_owned_inv s h i e p sh Hi Ht (ex_intro _ x Hx) Hh) as (_ & _ & H & _).
  rewrite (i_sig s h Hi i e p Ht). unfold sem_ok in H. destruct (signalled p); [done|]. by destruct H.
Qed.
Lemma sem_sig s h x i sh : inv s h -> f_var s !! x = Some (Some i) -> f_heap s !! i = Some sh ->
  s_sem sh <> 0 -> has_sig i h = true.
Proof.
  intros Hi Hx Hh Hs. destruct (owned_heap s h x i Hi Hx) as (sh' & e & p & Hh' & Ht). simplify_eq.
  destruct (obj_owned_inv s h i e p sh Hi Ht (ex_intro _ x Hx) Hh) as (_ & _ & H & _).
  rewrite (i_sig s h Hi i e p Ht). unfold sem_ok in H. destruct (signalled p); [done|]. by destruct H.
Qed.

(** Dropping the future's reference. *)
Lemma drop_own s i sh e p :
  f_heap s !! i = Some sh -> fits (s_kind sh) e = true -> s_refs sh = S (tb p) ->
  s_cell sh = cell_at (s_kind sh) e p (s_status sh) ->
  exists hp l, drop_ref i s = Next (set_heap hp s) l /\
   ((p = TDone /\ hp = delete i (f_heap s) /\ l = [EvFreed i]) \/
    (p <> TDone /\ hp = <[i := Shared (s_kind sh) (s_cell sh) (s_sem sh) (s_status sh) 1]> (f_heap s) /\ l = [])).
Proof.
  intros Hh Hf Hr Hc. unfold drop_ref. rewrite Hh, Hr.
  destruct p; simpl; try (eexists _, _; split; [done|right; done]).
  rewrite Hc. destruct (cell_at_destroy (s_kind sh) e TDone (s_status sh) Hf) as [y ->].
  eexists _, _; split; [done|left; done].
Qed.

(** Only object [i] is touched. *)
Lemma inv_frame s h s' l i :
  inv s h ->
  (forall j, j <> i -> f_heap s' !! j = f_heap s !! j) ->
  (forall j, j <> i -> f_task s' !! j = f_task s !! j) ->
  (forall j, j <> i -> owned s' j <-> owned s j) ->
  (forall j, j <> i -> has_got j (rev l ++ h) = has_got j h /\ has_acq j (rev l ++ h) = has_acq j h /\
                       has_sig j (rev l ++ h) = has_sig j h /\
                       (forall y k e', EvScheduled y j k e' ∈ rev l ++ h -> EvScheduled y j k e' ∈ h)) ->
  (forall x, refers x (rev l ++ h) = mjoin (f_var s' !! x)) ->
  (forall x y j, f_var s' !! x = Some (Some j) -> f_var s' !! y = Some (Some j) -> x = y) ->
  (match f_task s' !! i with
   | Some (e, p) => obj (f_heap s' !! i) (owned s' i) (has_got i (rev l ++ h)) (has_acq i (rev l ++ h)) e p /\
                    has_sig i (rev l ++ h) = signalled p /\ ends_with i e (rev l ++ h)
   | None => f_heap s' !! i = None /\ ~ owned s' i /\ has_got i (rev l ++ h) = false /\ has_acq i (rev l ++ h) = false /\
             has_sig i (rev l ++ h) = false /\ forall y k e', EvScheduled y i k e' ∉ rev l ++ h
   end) ->
  (forall t x k, pc s' t = CAcquire x k ->
     exists i sh, f_var s' !! x = Some (Some i) /\ f_heap s' !! i = Some sh /\ s_status sh = NoWait) ->
  (forall t x, pc s' t = CRead x ->
     exists i sh, f_var s' !! x = Some (Some i) /\ f_heap s' !! i = Some sh /\ s_status sh <> NoWait) ->
  (forall t t' x, uses (pc s' t) = Some x -> uses (pc s' t') = Some x -> t = t') ->
  good (rev l ++ h) ->
  inv s' (rev l ++ h).
Proof.
  intros Hi Hhp Htk Hown Htr Href Hun Hobj Hacq Hread Hthr Hg. split; try done.
  - intros x j Hx. destruct (decide (j = i)) as [->|Hj].
    + destruct (f_task s' !! i) as [[e p]|]; [by eexists|]. destruct Hobj as (_ & Hn & _). destruct Hn. by exists x.
    + rewrite Htk by done. destruct (proj1 (Hown j Hj)) as [y Hy]; [by exists x|]. by apply (i_owntask s h Hi y).
  - intros j sh Hj. destruct (decide (j = i)) as [->|Hn].
    + destruct (f_task s' !! i) as [[e p]|]; [by eexists|]. destruct Hobj as (Hn & _). by rewrite Hn in Hj.
    + rewrite Hhp in Hj by done. rewrite Htk by done. by apply (i_heaptask s h Hi j sh).
  - intros j e p Hj. destruct (decide (j = i)) as [->|Hn].
    + rewrite Hj in Hobj. by destruct Hobj.
    + rewrite Htk in Hj by done. destruct (Htr j Hn) as (-> & -> & _ & _). rewrite Hhp by done.
      pose proof (Hown j Hn) as Ho.
      destruct (i_obj s h Hi j e p Hj) as [sh H1 H2|sh H1 H2|H1 H2];
        [eapply obj_owned|eapply obj_orphan|eapply obj_gone]; eauto; tauto.
  - intros j e p Hj. destruct (decide (j = i)) as [->|Hn].
    + rewrite Hj in Hobj. by destruct Hobj as (_ & ? & _).
    + rewrite Htk in Hj by done. destruct (Htr j Hn) as (_ & _ & -> & _). by apply (i_sig s h Hi j e p).
  - intros j e p Hj. destruct (decide (j = i)) as [->|Hn].
    + rewrite Hj in Hobj. by destruct Hobj as (_ & _ & ?).
    + rewrite Htk in Hj by done. destruct (i_ends s h Hi j e p Hj) as (x & k & Hx).
      exists x, k. apply elem_of_app. by right.
  - intros j Hj. destruct (decide (j = i)) as [->|Hn].
    + rewrite Hj in Hobj. by destruct Hobj as (_ & _ & Hj').
    + rewrite Htk in Hj by done. destruct (Htr j Hn) as (-> & -> & -> & Hs).
      destruct (i_new s h Hi j Hj) as (? & ? & ? & H). repeat split; try done.
      intros y k e' Hin. by apply (H y k e'), Hs.
Qed.

(** The same, with the threads: thread [t0] ends at [p0]. *)
Lemma inv_step s h s' l i t0 p0 :
  inv s h ->
  (forall j, j <> i -> f_heap s' !! j = f_heap s !! j) ->
  (forall j, j <> i -> f_task s' !! j = f_task s !! j) ->
  (forall j, j <> i -> owned s' j <-> owned s j) ->
  (forall j, j <> i -> has_got j (rev l ++ h) = has_got j h /\ has_acq j (rev l ++ h) = has_acq j h /\
                       has_sig j (rev l ++ h) = has_sig j h /\
                       (forall y k e', EvScheduled y j k e' ∈ rev l ++ h -> EvScheduled y j k e' ∈ h)) ->
  (forall x, refers x (rev l ++ h) = mjoin (f_var s' !! x)) ->
  (forall x y j, f_var s' !! x = Some (Some j) -> f_var s' !! y = Some (Some j) -> x = y) ->
  (match f_task s' !! i with
   | Some (e, p) => obj (f_heap s' !! i) (owned s' i) (has_got i (rev l ++ h)) (has_acq i (rev l ++ h)) e p /\
                    has_sig i (rev l ++ h) = signalled p /\ ends_with i e (rev l ++ h)
   | None => f_heap s' !! i = None /\ ~ owned s' i /\ has_got i (rev l ++ h) = false /\ has_acq i (rev l ++ h) = false /\
             has_sig i (rev l ++ h) = false /\ forall y k e', EvScheduled y i k e' ∉ rev l ++ h
   end) ->
  (forall t, pc s' t = if decide (t = t0) then p0 else pc s t) ->
  (forall t y j sh, t <> t0 -> uses (pc s t) = Some y -> f_var s !! y = Some (Some j) -> f_heap s !! j = Some sh ->
     f_var s' !! y = Some (Some j) /\ exists sh', f_heap s' !! j = Some sh' /\ s_status sh' = s_status sh) ->
  (match p0 with
   | CIdle => True
   | CAcquire x _ => exists i sh, f_var s' !! x = Some (Some i) /\ f_heap s' !! i = Some sh /\ s_status sh = NoWait
   | CRead x => exists i sh, f_var s' !! x = Some (Some i) /\ f_heap s' !! i = Some sh /\ s_status sh <> NoWait
   end) ->
  (forall x t, uses p0 = Some x -> t <> t0 -> uses (pc s t) <> Some x) ->
  good (rev l ++ h) ->
  inv s' (rev l ++ h).
Proof.
  intros Hi Hhp Htk Hown Htr Href Hun Hobj Hpc Hkeep Hp0 Hu0 Hg.
  apply (inv_frame s h s' l i); try done.
  - intros t x k Ht. rewrite Hpc in Ht. destruct (decide (t = t0)) as [->|Hn]; [by subst|].
    destruct (i_acq s h Hi t x k Ht) as (j & sh & H1 & H2 & H3).
    destruct (Hkeep t x j sh Hn) as (K1 & sh' & K2 & K3); [by rewrite Ht|done|done|].
    exists j, sh'. by rewrite K3.
  - intros t x Ht. rewrite Hpc in Ht. destruct (decide (t = t0)) as [->|Hn]; [by subst|].
    destruct (i_read s h Hi t x Ht) as (j & sh & H1 & H2 & H3).
    destruct (Hkeep t x j sh Hn) as (K1 & sh' & K2 & K3); [by rewrite Ht|done|done|].
    exists j, sh'. by rewrite K3.
  - intros t t' x. rewrite !Hpc. destruct (decide (t = t0)) as [->|Hn], (decide (t' = t0)) as [->|Hn']; try done.
    + intros H1 H2. by destruct (Hu0 x t' H1 Hn').
    + intros H1 H2. by destruct (Hu0 x t H2 Hn).
    + apply (i_thr s h Hi).
Qed.

(** What the invariant says of an untouched object. *)
Lemma obj_same s h i : inv s h ->
  match f_task s !! i with
  | Some (e, p) => obj (f_heap s !! i) (owned s i) (has_got i h) (has_acq i h) e p /\
                   has_sig i h = signalled p /\ ends_with i e h
  | None => f_heap s !! i = None /\ ~ owned s i /\ has_got i h = false /\ has_acq i h = false /\
            has_sig i h = false /\ forall y k e', EvScheduled y i k e' ∉ h
  end.
Proof.
  intros Hi. destruct (f_task s !! i) as [[e p]|] eqn:Ht.
  - split; [by apply (i_obj s h Hi)|]. split; [by apply (i_sig s h Hi i e p)|by apply (i_ends s h Hi i e p)].
  - split; [|split].
    + destruct (f_heap s !! i) as [sh|] eqn:Hh; [|done]. destruct (i_heaptask s h Hi i sh Hh). congruence.
    + intros [x Hx]. destruct (i_owntask s h Hi x i Hx). congruence.
    + by apply (i_new s h Hi).
Qed.

Lemma obj_iff hp (o o' : Prop) g a e p : (o <-> o') -> obj hp o g a e p -> obj hp o' g a e p.
Proof.
  intros Ho [sh H1 H2|sh H1 H2|H1 H2]; [eapply obj_owned|eapply obj_orphan|eapply obj_gone]; eauto; tauto.
Qed.

(** No object is touched; the events leave all flags alone. *)
Lemma inv_quiet s h s' l t0 p0 :
  inv s h ->
  f_heap s' = f_heap s -> f_task s' = f_task s ->
  (forall j, owned s' j <-> owned s j) ->
  (forall j, has_got j (rev l ++ h) = has_got j h /\ has_acq j (rev l ++ h) = has_acq j h /\
             has_sig j (rev l ++ h) = has_sig j h /\
             (forall y k e', EvScheduled y j k e' ∈ rev l ++ h -> EvScheduled y j k e' ∈ h)) ->
  (forall x, refers x (rev l ++ h) = mjoin (f_var s' !! x)) ->
  (forall x y j, f_var s' !! x = Some (Some j) -> f_var s' !! y = Some (Some j) -> x = y) ->
  (forall t, pc s' t = if decide (t = t0) then p0 else pc s t) ->
  (forall t y j, t <> t0 -> uses (pc s t) = Some y -> f_var s !! y = Some (Some j) -> f_var s' !! y = Some (Some j)) ->
  (match p0 with
   | CIdle => True
   | CAcquire x _ => exists i sh, f_var s' !! x = Some (Some i) /\ f_heap s' !! i = Some sh /\ s_status sh = NoWait
   | CRead x => exists i sh, f_var s' !! x = Some (Some i) /\ f_heap s' !! i = Some sh /\ s_status sh <> NoWait
   end) ->
  (forall x t, uses p0 = Some x -> t <> t0 -> uses (pc s t) <> Some x) ->
  good (rev l ++ h) ->
  inv s' (rev l ++ h).
Proof.
  intros Hi Hh Ht Ho Htr Hr Hu Hpc Hk Hp Hu0 Hg.
  apply (inv_step s h s' l 0 t0 p0); try done.
  - by intros j _; rewrite Hh.
  - by intros j _; rewrite Ht.
  - rewrite Ht, Hh. pose proof (obj_same s h 0 Hi) as Hs. destruct (Htr 0) as (-> & -> & -> & H).
    destruct (f_task s !! 0) as [[e p]|].
    + destruct Hs as (H1 & H2 & x & k & H3). split; [|split; [done|]].
      * eapply obj_iff; [|exact H1]. by rewrite Ho.
      * exists x, k. apply elem_of_app. by right.
    + destruct Hs as (H1 & H2 & H3 & H4 & H5 & H6). rewrite Ho. repeat split; try done.
      intros y k e' Hin. by apply (H6 y k e'), H.
  - intros t y j sh Hn Hy Hv Hs. split; [by apply (Hk t y j)|]. exists sh. by rewrite Hh.
Qed.
