(** Steps of one deque, as seen from its history (used by FineProofs2). *)

From stdpp Require Import prelude gmap list.
From Coq Require Import ZArith Lia.
From Verif Require Import DequeModel DequeSpec DequeProofs DequeLin.
Local Open Scope Z_scope.

Section deque.
Context {V : Type}.
Implicit Types (q : deque V) (h : list (dev V)).

Lemma own_idle k q h p : reach k q h -> in_phase None h p -> (d_own q = OIdle <-> p = Idle).
Proof.
  intros Hr Hp. destruct (reach_inv _ _ _ Hr) as [(r & _ & _ & _ & _ & Hown & Htr & _) _ _ _].
  unfold own_tr, own_phase, own_ok in *.
  destruct (d_own q) as [|v b|v b t|v b t rn|v b t|v b|x|b|b|b t|b [|]|b|];
    try (destruct Htr as (v & Htr)); try (pose proof (in_phase_fun _ _ _ Htr _ Hp) as E; by subst p).
  - destruct Hown as (-> & _ & Hv). destruct Hv as (_ & v & Hv); [done|]. rewrite Hv in Htr.
    pose proof (in_phase_fun _ _ _ Htr _ Hp) as E. by subst p.
  - destruct Hown as (_ & v & Hv). rewrite Hv in Htr.
    pose proof (in_phase_fun _ _ _ Htr _ Hp) as E. by subst p.
Qed.

Lemma owner_events op fail q q' ev : owner op fail q = Next q' ev ->
  d_thf q' = d_thf q /\
  (ev = [] \/ (exists o, ev = [ECall None o] /\ d_own q = OIdle /\ o = match op with Some v => DPush v | None => DPop end) \/
   (exists o x, ev = [ELin None o x]) \/ (exists x, ev = [ERet None x])) /\
  (d_own q = OIdle -> exists o, ev = [ECall None o]).
Proof.
  intros E. unfold owner, with_cur in E.
  destruct (d_own q) eqn:Eo; repeat case_match; try done; injection E as <- <-; (split; [done|]); (split; [|by eauto]); eauto 10.
Qed.

Lemma phase_of_lin h o x p : in_phase None (ELin None o x :: h) p -> p = Done o x /\ in_phase None h (Called o).
Proof. intros H. inversion H; subst; done. Qed.
Lemma phase_of_ret h x p : in_phase None (ERet None x :: h) p -> p = Idle /\ exists o, in_phase None h (Done o x).
Proof. intros H. inversion H; subst; [by eauto|done]. Qed.

(** A step of the owner, from phase [p] and contents [c]. *)
Lemma own_step_hist k q h op fail q' ev p c :
  reach k q h -> owner op fail q = Next q' ev -> in_phase None h p -> contents h c ->
  reach k q' (rev ev ++ h) /\ d_thf q' = d_thf q /\
  ((ev = [] /\ p <> Idle) \/
   (exists o, ev = [ECall None o] /\ p = Idle /\ o = match op with Some v => DPush v | None => DPop end) \/
   (exists o x c', ev = [ELin None o x] /\ p = Called o /\ seq_op o x c c' /\ contents (rev ev ++ h) c') \/
   (exists o x, ev = [ERet None x] /\ p = Done o x)) /\
  (forall o, ev = [ECall None o] -> in_phase None (rev ev ++ h) (Called o)) /\
  (forall o x, ev = [ELin None o x] -> in_phase None (rev ev ++ h) (Done o x)) /\
  (forall x, ev = [ERet None x] -> in_phase None (rev ev ++ h) Idle) /\
  ((forall o x, ev <> [ELin None o x]) -> contents (rev ev ++ h) c).
Proof.
  intros Hr E Hp Hc.
  assert (Hr' : reach k q' (rev ev ++ h)) by (by apply (reach_step k q h (DOwner op fail))).
  pose proof (own_idle _ _ _ _ Hr Hp) as Hidle.
  destruct (owner_events _ _ _ _ _ E) as (Ethf & Ev & Ecall).
  split; [done|]. split; [done|].
  destruct (reach_phase _ _ _ Hr' None) as (p' & Hp'). destruct (reach_contents _ _ _ Hr') as (c' & Hc' & _).
  destruct Ev as [->|[(o & -> & Eo & Eop)|[(o & x & ->)|(x & ->)]]]; cbn in *.
  - split_and!; try done. left. split; [done|]. intros ->. destruct Ecall as (? & ?); [by apply Hidle|done].
  - split_and!; try done.
    + right. left. exists o. split_and!; try done. by apply Hidle.
    + intros o' [= <-]. apply ph_call. replace Idle with p; [done|by apply Hidle].
    + intros _. by constructor.
  - apply phase_of_lin in Hp' as (-> & Hp0). pose proof (in_phase_fun _ _ _ Hp0 _ Hp) as <-.
    split_and!; try done.
    + right. right. left. inversion Hc'; subst.
      match goal with H : contents h ?q0 |- _ => pose proof (contents_fun _ _ H _ Hc); subst q0 end. exists o, x, c'. done.
    + intros o' x' [= <- <-]. by constructor.
    + intros H. by destruct (H o x).
  - apply phase_of_ret in Hp' as (-> & o & Hp0). pose proof (in_phase_fun _ _ _ Hp0 _ Hp) as <-.
    split_and!; try done.
    + right. right. right. by exists o, x.
    + intros x' [= <-]. by econstructor.
    + intros _. by constructor.
Qed.

(** A step of thief [i]. *)
Lemma thief_step_hist k q h i q' ev p c :
  reach k q h -> thief i q = Next q' ev -> in_phase None h p -> contents h c ->
  reach k q' (rev ev ++ h) /\ d_own q' = d_own q /\ (forall j, j <> i -> d_thf q' j = d_thf q j) /\
  in_phase None (rev ev ++ h) p /\
  ((ev = [] /\ contents (rev ev ++ h) c /\ thf_phase (d_thf q i) = Called DSteal /\ thf_phase (d_thf q' i) = Called DSteal) \/
   (ev = [ECall (Some i) DSteal] /\ contents (rev ev ++ h) c /\ d_thf q i = TIdle /\ thf_phase (d_thf q' i) = Called DSteal) \/
   (exists x c', ev = [ELin (Some i) DSteal x] /\ contents (rev ev ++ h) c' /\ seq_op DSteal x c c' /\
      thf_phase (d_thf q i) = Called DSteal /\ d_thf q' i = TRet x) \/
   (exists x, ev = [ERet (Some i) x] /\ contents (rev ev ++ h) c /\ d_thf q i = TRet x /\ d_thf q' i = TIdle)).
Proof.
  intros Hr E Hp Hc.
  assert (Hr' : reach k q' (rev ev ++ h)) by (by apply (reach_step k q h (DThief i))).
  destruct (reach_contents _ _ _ Hr') as (c' & Hc' & _). split; [done|].
  assert (Hx : d_own q' = d_own q /\ (forall j, j <> i -> d_thf q' j = d_thf q j) /\
    ((ev = [] /\ thf_phase (d_thf q i) = Called DSteal /\ thf_phase (d_thf q' i) = Called DSteal) \/
     (ev = [ECall (Some i) DSteal] /\ d_thf q i = TIdle /\ thf_phase (d_thf q' i) = Called DSteal) \/
     (exists x, ev = [ELin (Some i) DSteal x] /\ thf_phase (d_thf q i) = Called DSteal /\ d_thf q' i = TRet x) \/
     (exists x, ev = [ERet (Some i) x] /\ d_thf q i = TRet x /\ d_thf q' i = TIdle))).
  { clear -E. unfold thief in E. destruct (d_thf q i) eqn:Ei; repeat case_match; try done; injection E as <- <-;
      (split; [done|]); (split; [by intros j Hj; cbn; rewrite decide_False|]); cbn; rewrite ?decide_True by done; cbn; eauto 10. }
  destruct Hx as (H1 & H2 & Hx). split; [done|]. split; [done|].
  destruct Hx as [(-> & Ha & Hb)|[(-> & Ha & Hb)|[(x & -> & Ha & Hb)|(x & -> & Ha & Hb)]]]; cbn in *.
  - split; [done|]. left. done.
  - split; [by constructor|]. right. left. split_and!; try done. by constructor.
  - split; [by constructor|]. right. right. left. inversion Hc'; subst.
    match goal with H : contents h ?q0 |- _ => pose proof (contents_fun _ _ H _ Hc); subst q0 end. exists x, c'. done.
  - split; [by constructor|]. right. right. right. exists x. split_and!; try done. by constructor.
Qed.

Lemma idle_empty k q h c : reach k q h -> d_own q = OIdle -> contents h c -> (is_empty (d_bot q) (d_top q) = true <-> c = []).
Proof.
  intros Hr Ho Hc. destruct (reach_phase _ _ _ Hr None) as (p & Hp).
  pose proof (proj1 (own_idle _ _ _ _ Hr Hp) Ho) as ->.
  destruct (reach_contents _ _ _ Hr) as (q0 & Hq & Hlen). pose proof (contents_fun _ _ Hq _ Hc) as ->.
  rewrite (idle_hi _ _ _ Hr Hp) in Hlen. unfold is_empty. rewrite bool_decide_eq_true.
  destruct c; cbn [length] in *; split; try done; lia.
Qed.

Lemma done_result w h p : in_phase w h p -> forall c o x, contents h c -> p = Done o x -> exists c1 c2, seq_op o x c1 c2.
Proof.
  induction 1; intros c0 o0 x0 Hc E; try done; inversion Hc; subst; eauto.
  injection E as <- <-. eauto.
Qed.

Lemma no_undef k q h : reach k q h -> forall op fail, owner op fail q <> Undef /\ forall i, thief i q <> Undef.
Proof.
  intros Hr op fail. split.
  - destruct (step_ok k q h (DOwner op fail) (reach_inv _ _ _ Hr)) as (s' & tr & E & _). cbn in E. by rewrite E.
  - intros i. destruct (step_ok k q h (DThief i) (reach_inv _ _ _ Hr)) as (s' & tr & E & _). cbn in E. by rewrite E.
Qed.
End deque.
