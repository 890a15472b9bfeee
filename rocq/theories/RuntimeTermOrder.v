(** * Well-founded orders for the termination of the runtime. *)

From stdpp Require Import prelude gmap list.
From Coq Require Import NArith Lia Wellfounded.
From Verif Require Import RuntimeModel RuntimeSpec RuntimeTermSpec.
Local Open Scope N_scope.

(** ** Multisets: replace one element by finitely many smaller ones *)
Section mult.
Context {A : Type} (R : A -> A -> Prop).

Definition mless (M' M : list A) : Prop :=
  exists x Y K, M ≡ₚ x :: K /\ M' ≡ₚ Y ++ K /\ forall y, y ∈ Y -> R y x.

Lemma mless_perm M1 M2 M' : M1 ≡ₚ M2 -> mless M' M1 -> mless M' M2.
Proof. intros E (x & Y & K & H1 & H2 & H3). exists x, Y, K. rewrite <- E. done. Qed.

Lemma acc_perm M1 M2 : M1 ≡ₚ M2 -> Acc mless M1 -> Acc mless M2.
Proof. intros E [H]. constructor. intros M' HM. apply H. by eapply mless_perm. Qed.

Lemma acc_cons x : Acc R x -> forall M, Acc mless M -> Acc mless (x :: M).
Proof.
  induction 1 as [x _ IHx]. intros M HM. induction HM as [M HM0 IHM].
  constructor. intros M' (z & Y & K & H1 & H2 & H3).
  assert (Hz : z ∈ x :: M) by (rewrite H1; by left).
  apply elem_of_cons in Hz as [-> |Hz].
  - apply Permutation_cons_inv in H1.
    assert (E : M' ≡ₚ Y ++ M) by (by rewrite H2, H1).
    eapply acc_perm; [symmetry; exact E|]. clear H1 H2 E.
    induction Y as [|y Y IH]; cbn; [by constructor|].
    apply IHx; [apply H3; by left|]. apply IH. intros y' Hy'. apply H3. by right.
  - apply elem_of_Permutation in Hz as (K' & E).
    assert (E2 : K ≡ₚ x :: K').
    { rewrite E in H1. apply (Permutation_cons_inv (a := z)). rewrite <- H1. constructor. }
    eapply acc_perm; [|apply (IHM (Y ++ K'))].
    + rewrite H2, E2. apply Permutation_middle.
    + exists z, Y, K'. done.
Qed.

Lemma acc_mless M : (forall x, x ∈ M -> Acc R x) -> Acc mless M.
Proof.
  induction M as [|x M IH]; intros H.
  - constructor. intros M' (x & Y & K & H1 & _). by apply Permutation_nil_cons in H1.
  - apply acc_cons; [apply H; by left|]. apply IH. intros y Hy. apply H. by right.
Qed.
End mult.

(** ** Finite maps as multisets *)
Section gmult.
Context {A : Type} (R : A -> A -> Prop).

Definition vals (M : gmap N A) : list A := (map_to_list M).*2.
Definition gless (M' M : gmap N A) : Prop := mless R (vals M') (vals M).

Lemma acc_gless M : (forall f x, M !! f = Some x -> Acc R x) -> Acc gless M.
Proof.
  intros H. unfold gless. apply (Acc_inverse_image _ _ (mless R) vals). apply acc_mless.
  intros x (p & -> & Hp)%elem_of_list_fmap. destruct p as [f x]. apply elem_of_map_to_list in Hp. eauto.
Qed.

Lemma vals_insert M f x : M !! f = None -> vals (<[f := x]> M) ≡ₚ x :: vals M.
Proof. intros H. unfold vals. by rewrite map_to_list_insert. Qed.

Lemma vals_delete M f x : M !! f = Some x -> vals M ≡ₚ x :: vals (delete f M).
Proof.
  intros H. rewrite <- (vals_insert (delete f M) f x) by apply lookup_delete.
  by rewrite insert_delete.
Qed.

Lemma gless_one M f x y : M !! f = Some x -> R y x -> gless (<[f := y]> M) M.
Proof.
  intros H Hr. exists x, [y], (vals (delete f M)). split; [by apply vals_delete|].
  split; [|by intros y' ->%elem_of_list_singleton].
  rewrite <- insert_delete_insert. rewrite vals_insert by apply lookup_delete. done.
Qed.

Lemma gless_two M f c x y z :
  M !! f = Some x -> M !! c = None -> R y x -> R z x -> gless (<[c := z]> (<[f := y]> M)) M.
Proof.
  intros H Hc Hy Hz. assert (f <> c) by congruence.
  exists x, [z; y], (vals (delete f M)). split; [by apply vals_delete|]. split.
  - rewrite vals_insert by (by rewrite lookup_insert_ne).
    rewrite <- insert_delete_insert. rewrite vals_insert by apply lookup_delete. done.
  - intros y' [-> | ->%elem_of_list_singleton]%elem_of_cons; done.
Qed.

Lemma gless_del M f x : M !! f = Some x -> gless (delete f M) M.
Proof.
  intros H. exists x, [], (vals (delete f M)). split; [by apply vals_delete|]. split; [done|].
  by intros y ?%elem_of_nil.
Qed.
End gmult.

(** ** The rest of a task *)

(** A task at a resume point, with what its children may have left and thrown. *)
Notation node := (rpoint * (exn -> Prop) * list (cell -> Prop))%type.

Section nodes.
Context (af : bool).

Inductive nless : node -> node -> Prop :=
| nl_sig X L X' L' : nless (RSignalled, X, L) (RFinal, X', L')
| nl_capt X L X' L' e : nless (RFinal, X, L) (RCapture e, X', L')
| nl_ret X L X' L' v : nless (RFinal, X, L) (RRun (Ret v), X', L')
| nl_throw X L X' L' e : nless (RFinal, X, L) (RRun (Throw e), X', L')
| nl_throw2 X L X' L' e e' : nless (RCapture e', X, L) (RRun (Throw e), X', L')
| nl_fork X L m st c k pre :
    nless (RFork m st k pre, fun e => X e \/ may_throw af st c e, L ++ [may_leave af st c]) (RRun (Fork m st c k), X, L)
| nl_fork_child X L m st c k : nless (RRun c, fun _ => False, []) (RRun (Fork m st c k), X, L)
| nl_fork_fail X L m st c k : af = true -> nless (RRun (k (FExn EBadAlloc)), X, L) (RRun (Fork m st c k), X, L)
| nl_async X L m st k pre : nless (RRun (k FAsync), X, L) (RFork m st k pre, X, L)
| nl_fdone X L (P : cell -> Prop) m st k pre cl : m <> FNone -> P cl ->
    nless (RRun (k (FDone cl)), X, L ++ [eq cl]) (RFork m st k pre, X, L ++ [P])
| nl_fexn (X : exn -> Prop) L m st k pre e : m <> FNone -> X e -> nless (RRun (k (FExn e)), X, L) (RFork m st k pre, X, L)
| nl_fbefore (X : exn -> Prop) L m st k pre e : m <> FNone -> X e -> nless (RRun (k (FExn EBeforeJoin)), X, L) (RFork m st k pre, X, L)
| nl_call X L m st c k :
    nless (RCall m st k, fun e => X e \/ may_throw af st c e, L ++ [may_leave af st c]) (RRun (Call m st c k), X, L)
| nl_call_child X L m st c k : nless (RRun c, fun _ => False, []) (RRun (Call m st c k), X, L)
| nl_call_fail X L m st c k : af = true -> nless (RRun (k (CExn EBadAlloc)), X, L) (RRun (Call m st c k), X, L)
| nl_cdone X L (P : cell -> Prop) m st k cl : P cl ->
    nless (RRun (k (CDone cl)), X, L ++ [eq cl]) (RCall m st k, X, L ++ [P])
| nl_cexn (X : exn -> Prop) L m st k e : m <> MNone -> X e -> nless (RRun (k (CExn e)), X, L) (RCall m st k, X, L)
| nl_cbefore (X : exn -> Prop) L m st k e : m <> MNone -> X e -> nless (RRun (k (CExn EBeforeJoin)), X, L) (RCall m st k, X, L)
| nl_wait X L k : nless (RJoin k, X, L) (RRun (Join k), X, L)
| nl_join (X : exn -> Prop) L k cs r rp : rp = RRun (Join k) \/ rp = RJoin k ->
    Forall2 (fun P cl => P cl) L cs -> (forall e, r = Some e -> X e) ->
    nless (RRun (k cs r), fun _ => False, map eq cs) (rp, X, L)
| nl_switch X L sk d k : nless (RSwitched d k, X, L) (RRun (Switch sk d k), X, L)
| nl_switch2 X L sk d k : nless (RRun k, X, L) (RRun (Switch sk d k), X, L)
| nl_switched X L d k : nless (RRun k, X, L) (RSwitched d k, X, L)
| nl_stash X L e k : nless (RRun k, fun e' => X e' \/ e' = e, L) (RRun (Stash e k), X, L)
| nl_where X L k w : nless (RRun (k w), X, L) (RRun (Where k), X, L).

Lemma acc_sig X L : Acc nless (RSignalled, X, L).
Proof. constructor. intros y Hy. inversion Hy; subst; naive_solver. Qed.
Lemma acc_fin X L : Acc nless (RFinal, X, L).
Proof. constructor. intros y Hy. inversion Hy; subst; [apply acc_sig|naive_solver]. Qed.
Lemma acc_capt e X L : Acc nless (RCapture e, X, L).
Proof. constructor. intros y Hy. inversion Hy; subst; [apply acc_fin|naive_solver]. Qed.

Ltac nojoin := match goal with H : _ \/ _ |- _ => destruct H; discriminate end.

Lemma halts_acc X L t : halts af X L t -> Acc nless (RRun t, X, L).
Proof.
  induction 1 as
    [X L v|X L e|X L m st c k X' _ IHc _ IHa _ IHd _ IHe _ IHb _ IHf|X L m st c k X' _ IHc _ IHd _ IHe _ IHb _ IHf
    |X L k _ IH|X L sk d k _ IH|X L e k _ IH|X L k _ IH]; constructor; intros y Hy.
  - inversion Hy; subst; [apply acc_fin|nojoin].
  - inversion Hy; subst; [apply acc_fin|apply acc_capt|nojoin].
  - inversion Hy; subst; [|exact IHc|by apply IHf|nojoin].
    clear Hy. constructor. intros y Hy. inversion Hy; subst.
    + exact IHa.
    + match goal with H : _ ++ [_] = _ ++ [_] |- _ => apply app_inj_tail in H as [-> ->] end. by apply IHd.
    + by apply IHe.
    + by eapply IHb.
    + nojoin.
  - inversion Hy; subst; [|exact IHc|by apply IHf|nojoin].
    clear Hy. constructor. intros y Hy. inversion Hy; subst.
    + match goal with H : _ ++ [_] = _ ++ [_] |- _ => apply app_inj_tail in H as [-> ->] end. by apply IHd.
    + by apply IHe.
    + by eapply IHb.
    + nojoin.
  - inversion Hy; subst.
    + clear Hy. constructor. intros y Hy. inversion Hy; subst.
      match goal with H : _ \/ _ |- _ => destruct H as [H|H]; [discriminate|injection H as ->] end. by apply IH.
    + match goal with H : _ \/ _ |- _ => destruct H as [H|H]; [injection H as ->|discriminate] end. by apply IH.
  - inversion Hy; subst; [nojoin| |exact IH].
    clear Hy. constructor. intros y Hy. inversion Hy; subst; [nojoin|exact IH].
  - inversion Hy; subst; [nojoin|exact IH].
  - inversion Hy; subst; [nojoin|apply IH].
Qed.

End nodes.

Lemma finite_halts af t : finite t -> forall X L, halts af X L t.
Proof. induction 1; intros X L; constructor; auto. Qed.
