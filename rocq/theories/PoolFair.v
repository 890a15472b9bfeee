(** * Infinite executions and fairness, for the models of the thread pools. *)

From stdpp Require Import prelude list.
From Coq Require Import Lia.
From Verif Require Import PoolCommon.

Section Fair.
Context {S L : Type} (step : L -> S -> outcome S) (init : S).

(** An infinite execution: at each time one labelled step, or nothing. *)
Record run (sg : nat -> S) (l : nat -> option L) : Prop := Run {
  run_init : sg 0 = init;
  run_step : forall i, match l i with
                       | Some x => exists tr, step x (sg i) = Next (sg (i + 1)) tr
                       | None => sg (i + 1) = sg i
                       end
}.

(** Event [e] happens at time [i]. *)
Definition emits (sg : nat -> S) (l : nat -> option L) (i : nat) (e : pev) : Prop :=
  exists x tr, l i = Some x /\ step x (sg i) = Next (sg (i + 1)) tr /\ e ∈ tr.

(** The thread with the labels [T] makes a step again and again, except while it cannot. *)
Definition fair_to (T : L -> Prop) (sg : nat -> S) (l : nat -> option L) : Prop :=
  forall i, exists j, i <= j /\ ((exists x, l j = Some x /\ T x) \/ forall x, T x -> step x (sg j) = Blocked).

Lemma until (R G X : nat -> Prop) i :
  (forall k, i <= k -> R k -> X k \/ R (k + 1) \/ G (k + 1)) -> R i -> (exists j, i <= j /\ X j) ->
  exists j, i <= j /\ (G j \/ (R j /\ X j)).
Proof.
  intros Hk HR (j & Hij & HX). remember (j - i) as m eqn:Hm. revert i Hk HR Hij Hm.
  induction m as [|m IH]; intros i Hk HR Hij Hm.
  - assert (i = j) as -> by lia. exists j. auto.
  - destruct (Hk i) as [?|[HR'|HG]]; [lia|done|exists i; auto| |exists (i + 1); split; [lia|auto]].
    destruct (IH (i + 1)) as (j' & Hj' & H); [intros k Hki; apply Hk; lia|done|lia|lia|]. exists j'. split; [lia|done].
Qed.

(** A property preserved by every step holds ever after. *)
Lemma stable (P : nat -> Prop) i : (forall k, i <= k -> P k -> P (k + 1)) -> P i -> forall j, i <= j -> P j.
Proof.
  intros Hk HP j Hij. remember (j - i) as m eqn:Hm. revert i Hk HP Hij Hm. induction m as [|m IH]; intros i Hk HP Hij Hm.
  - by assert (i = j) as -> by lia.
  - apply (IH (i + 1)); [intros k Hki; apply Hk; lia|by apply Hk|lia|lia].
Qed.

(** Finitely many things that happen and stay are all there at some time. *)
Lemma gather (P : nat -> nat -> Prop) m i :
  (forall w k, w < m -> i <= k -> P w k -> P w (k + 1)) -> (forall w, w < m -> exists j, i <= j /\ P w j) ->
  exists j, i <= j /\ forall w, w < m -> P w j.
Proof.
  induction m as [|m IH]; intros Hs He.
  - exists i. split; [lia|]. intros w Hw. lia.
  - destruct IH as (j & Hj & HP); [intros w k Hw; apply Hs; lia|intros w Hw; apply He; lia|].
    destruct (He m) as (j2 & Hj2 & HP2); [lia|]. exists (j `max` j2). split; [lia|]. intros w Hw.
    destruct (decide (w = m)) as [->|Hne].
    + apply (stable (P m) j2); [intros k Hk; apply Hs; lia|done|lia].
    + apply (stable (P w) j); [intros k Hk; apply Hs; lia|apply HP; lia|lia].
Qed.
End Fair.

(** ** Finite executions as infinite ones that end in doing nothing, for examples *)
Section Exec.
Context {S L : Type} (step : L -> S -> outcome S) (init : S).

(** Runs the labels that are possible, skips the others. *)
Fixpoint greedy (ls : list L) (s : S) : list L :=
  match ls with
  | [] => []
  | x :: ls => match step x s with Next s' _ => x :: greedy ls s' | _ => greedy ls s end
  end.
Fixpoint exec (ls : list L) (s : S) : option (S * list pev) :=
  match ls with
  | [] => Some (s, [])
  | x :: ls => match step x s with
               | Next s' tr => match exec ls s' with Some (s2, t) => Some (s2, tr ++ t) | None => None end
               | _ => None
               end
  end.
Definition state_after (ls : list L) : S := match exec ls init with Some (s, _) => s | None => init end.
Definition states (ls : list L) (i : nat) : S := state_after (firstn i ls).
Definition labels (ls : list L) (i : nat) : option L := nth_error ls i.

Lemma exec_app l1 l2 s : exec (l1 ++ l2) s =
  match exec l1 s with Some (s1, t1) => match exec l2 s1 with Some (s2, t2) => Some (s2, t1 ++ t2) | None => None end | None => None end.
Proof.
  revert s. induction l1 as [|x l1 IH]; intros s; simpl; [by destruct (exec l2 s) as [[??]|]|].
  destruct (step x s) as [s1 tr| |]; try done. rewrite IH. destruct (exec l1 s1) as [[s2 t]|]; [|done].
  destruct (exec l2 s2) as [[s3 t']|]; [|done]. by rewrite app_assoc.
Qed.

Lemma firstn_snoc (ls : list L) i x : nth_error ls i = Some x -> firstn (i + 1) ls = firstn i ls ++ [x].
Proof. revert i. induction ls as [|y ls IH]; intros [|i] H; simpl in *; try done; [by injection H as ->|]. by rewrite IH. Qed.

Lemma run_of_list ls : exec ls init <> None -> run step init (states ls) (labels ls).
Proof.
  intros Hx. split; [done|]. intros i. unfold labels. destruct (nth_error ls i) as [x|] eqn:Hi.
  - unfold states, state_after. rewrite (firstn_snoc ls i x Hi), exec_app.
    destruct (exec (firstn i ls) init) as [[s1 t1]|] eqn:E1.
    + simpl. rewrite <- (firstn_skipn (i + 1) ls), (firstn_snoc ls i x Hi), !exec_app, E1 in Hx. simpl in Hx.
      destruct (step x s1) as [s2 tr| |]; try done. exists tr. done.
    + rewrite <- (firstn_skipn i ls), exec_app, E1 in Hx. done.
  - apply nth_error_None in Hi. unfold states. rewrite !firstn_all2 by lia. done.
Qed.
Lemma states_end ls i : length ls <= i -> states ls i = state_after ls.
Proof. intros H. unfold states. by rewrite firstn_all2. Qed.
End Exec.
