(** * Properties of the submission list (C22). *)

From stdpp Require Import prelude gmap list.
From Coq Require Import Lia.
From Verif Require Import ListModel ListSpec ListProofs.

Section thms.
Context {V : Type}.

(** What the consumer has seen, followed by something, is what was pushed, in the
    order in which the pushes took effect: no value is lost, duplicated, invented or
    overtaken. *)
Theorem C22_fifo (s : lst V) h : lreach s h -> seen h `prefix_of` pushed h.
Proof.
  intros [_ _ (hs & us & fs & _ & _ & _ & _ & _ & Hb & Hp)]%lreach_inv.
  rewrite Hp, Hb, <- (assoc_L (++)). by eexists.
Qed.

(** When the consumer has gone through the list it popped, it has seen exactly the
    values pushed before that try_pop_all. *)
Theorem C22_all_popped (s : lst V) h1 h2 : lreach s (h1 ++ EDone :: h2) -> seen h2 = before_pop h2.
Proof.
  remember (h1 ++ EDone :: h2) as h eqn:E. intros Hr. revert h1 h2 E.
  induction Hr as [|s h l s' tr Hr IH Hs]; intros h1 h2 E; [by destruct h1|].
  assert (tr = [] \/ exists e, tr = [e]) as Htr.
  { destruct l; simpl in Hs; unfold producer, consumer in Hs;
      repeat case_match; try done; injection Hs as <- <-; eauto. }
  destruct Htr as [->|[e ->]]; simpl in E; [by eapply IH|].
  destruct h1 as [|e1 h1]; simpl in E; [|injection E as -> E; by eapply IH].
  injection E as -> ->.
  destruct (lreach_inv _ _ Hr) as [_ _ (hs & us & fs & _ & Hc & _ & _ & _ & Hb & _)].
  destruct l; simpl in Hs; unfold producer, consumer in Hs; repeat case_match; try done.
  unfold cons_ok in Hc. simplify_eq. 
  match goal with H : l_cons s = _ |- _ => rewrite H in Hc end.
  destruct Hc as [-> Hc]. inversion Hc; subst. simpl in Hb. by rewrite app_nil_r in Hb.
Qed.

(** Each push takes effect exactly once, between its call and its return, with the
    value it was called with. *)
Theorem C22_push_takes_effect_once (s : lst V) h i : lreach s h -> exists p, pphase i h p.
Proof.
  intros [Hp _ _]%lreach_inv. specialize (Hp i). unfold prod_ok in Hp.
  destruct (l_prod s i); try destruct Hp as (? & ? & ?); eauto. destruct Hp; eauto.
Qed.

(** No step touches a destroyed node or violates the assertion in push. *)
Theorem C22_no_undefined_behaviour (s : lst V) h l : lreach s h -> lstep_of l s <> Undef.
Proof.
  intros Hr. pose proof (lstep_ok l s h (lreach_inv _ _ Hr)) as H. by destruct (lstep_of l s).
Qed.

(** A push is never blocked: whenever a producer has called push, it can take a
    step. *)
Theorem C22_push_not_blocked (s : lst V) h i n v spur :
  lreach s h -> l_prod s i <> PIdle -> exists s' tr, lstep_of (LProd i n v spur) s = Next s' tr.
Proof.
  intros Hr Hi. pose proof (C22_no_undefined_behaviour s h (LProd i n v spur) Hr) as Hu.
  simpl in *. unfold producer in *. destruct (l_prod s i); [done|repeat case_match; eauto; done..].
Qed.

End thms.

(** ** A concrete execution: two producers race, the first compare-exchange of the
    second fails; the consumer pops both while the address of the first node is
    reused. *)
Fixpoint lrun {V} (ls : list (llab V)) (s : lst V) (h : list (lev V)) : option (lst V * list (lev V)) :=
  match ls with
  | [] => Some (s, h)
  | l :: ls' => match lstep_of l s with Next s' tr => lrun ls' s' (rev tr ++ h) | _ => None end
  end.

Lemma lrun_reach {V} (ls : list (llab V)) : forall s h, lreach s h ->
  match lrun ls s h with Some (s', h') => lreach s' h' | None => True end.
Proof.
  induction ls as [|l ls IH]; intros s h Hr; simpl; [done|].
  destruct (lstep_of l s) as [s' tr| |] eqn:E; try done. apply IH. by econstructor.
Qed.

Definition p (i n v : nat) : llab nat := LProd i n v false.
Definition demo_labels : list (llab nat) :=
  [p 0 0 10; p 0 0 10; p 1 1 20; p 1 1 20; p 0 0 10; p 0 0 10; p 0 0 10;   (* 0 pushes 10 *)
   p 1 1 20; p 1 1 20; p 1 1 20; p 1 1 20; p 1 1 20;                       (* 1: the CAS fails, then succeeds *)
   LCons; LCons; LCons; LCons; LCons;                                      (* reversed, 10 seen *)
   p 0 0 30; p 0 0 30; p 0 0 30; p 0 0 30; p 0 0 30;                       (* 0 pushes 30 at the same address *)
   LCons; LCons].
Definition demo : lst nat * list (lev nat) :=
  match lrun demo_labels linit [] with Some x => x | None => (linit, []) end.

Example C22_nonvacuous :
  lreach (fst demo) (snd demo) /\
  snd demo = [EDone; EElem 20; EPushRet 0; EPushed 0 30; EPushCall 0 30; EElem 10; EPopAll; EPushRet 1;
              EPushed 1 20; EPushRet 0; EPushed 0 10; EPushCall 1 20; EPushCall 0 10].
Proof.
  split; [|vm_compute; reflexivity].
  pose proof (lrun_reach demo_labels linit [] lreach_init) as H. unfold demo.
  destruct (lrun demo_labels linit []) as [[s h]|]; [done|constructor].
Qed.

Print Assumptions C22_fifo.
Print Assumptions C22_all_popped.
Print Assumptions C22_push_takes_effect_once.
Print Assumptions C22_no_undefined_behaviour.
Print Assumptions C22_push_not_blocked.
