(** * C82: threads that submit to a pool at the same time.

    Model: SubmitModel.v.  Specification: SubmitSpec.v. *)

From stdpp Require Import prelude list relations.
From Coq Require Import Lia.
From Verif Require Import SubmitModel SubmitSpec SubmitProofs.

(** The full claim, that any number of threads may call schedule of a pool without a data race, is false of
    the code: the state of the pool's random number generator is not protected.  Two threads that
    submit one task each may race. *)
Theorem C82_submitters_race_refuted :
  ~ forall s i j, reach false (fun _ _ => True) s -> ~ race (log s) i j.
Proof.
  intros H.
  set (ls := [Begin 0 (PoolCall 0 0); Begin 1 (PoolCall 0 0); Act 0; Act 0; Act 0; Act 0; Act 0; Act 1; Act 1; Act 1; Act 1]).
  destruct (acts false ls init) as [s|] eqn:E; [|vm_compute in E; discriminate E].
  assert (Hr : reach false (fun _ _ => True) s).
  { eapply (acts_reach false _ ls init); [constructor| |exact E]. unfold ls. repeat constructor. }
  assert (El : log s = [(0, Rd 1); (0, Rd 1); (0, Rd 0); (0, Rd 2); (0, Wr 2); (1, Rd 1); (1, Rd 1); (1, Rd 0); (1, Rd 2)]).
  { vm_compute in E. by injection E as <-. }
  apply (H s 4 8 Hr). rewrite El. exists 0, 1, (Wr 2), (Rd 2), 2, true, false.
  assert (Hn : forall k t, [(0, Rd 1); (0, Rd 1); (0, Rd 0); (0, Rd 2); (0, Wr 2); (1, Rd 1); (1, Rd 1); (1, Rd 0); (1, Rd 2)] !! k <> Some (t, Unlock)).
  { intros k t X. apply elem_of_list_lookup_2 in X. repeat (apply elem_of_cons in X as [X|X]; [discriminate X|]). by apply elem_of_nil in X. }
  split_and!; [lia|done|done|done|done|by left|..]; intros (t & a & b & X & Y)%(hb_same _ _ _ Hn); cbn in X, Y; congruence.
Qed.

(** It holds if the clients call schedule under a mutex of their own. *)
Theorem C82_mutex_partial ok s i j : reach true ok s -> ~ race (log s) i j.
Proof.
  intros Hr%reach_inv (t & u & a & b & w & x & y & Hij & Hi & Hj & Ta%touches_rng & Tb%touches_rng & _ & Hn & _). by destruct Hn; eapply (i_ord s Hr).
Qed.

(** It holds if only one thread calls schedule of the pool, whatever number of threads submit to the contexts of
    workers directly. *)
Theorem C82_one_thread_partial t0 s i j :
  reach false (fun t c => (exists k d, c = PoolCall k d) -> t = t0) s -> ~ race (log s) i j.
Proof.
  intros (_ & HL)%one_thread (t & u & a & b & w & x & y & Hij & Hi & Hj & Ta%touches_rng & Tb%touches_rng & _ & Hn & _). destruct Hn.
  rewrite (HL _ _ _ Hi Ta) in Hi. rewrite (HL _ _ _ Hj Tb) in Hj. apply tc_once. left. split; [done|]. by exists t0, a, b.
Qed.

(** ** The hypotheses are met *)

(** Two threads submit, one after the other, under a mutex. *)
Example C82_mutex_instance : exists s, reach true (fun _ _ => True) s /\ held s = Some 1 /\
  log s !! 5 = Some (0, Wr 2) /\ log s !! 26 = Some (1, Wr 2).
Proof.
  set (ls := [Begin 0 (PoolCall 0 0); Begin 1 (PoolCall 0 0)] ++ repeat (Act 0) 21 ++ repeat (Act 1) 9).
  destruct (acts true ls init) as [s|] eqn:E; [|vm_compute in E; discriminate E]. exists s. split.
  - eapply (acts_reach true _ ls init); [constructor| |exact E]. unfold ls. repeat constructor.
  - vm_compute in E. injection E as <-. vm_compute. split_and!; reflexivity.
Qed.
(** One thread submits to the pool while another one submits to a context. *)
Example C82_one_thread_instance : exists s, reach false (fun t c => (exists k d, c = PoolCall k d) -> t = 0) s /\
  log s !! 4 = Some (0, Wr 2) /\ log s !! 5 = Some (1, Push 0).
Proof.
  set (ls := [Begin 0 (PoolCall 0 0); Begin 1 (ContextCall 0)] ++ repeat (Act 0) 5 ++ [Act 1]).
  destruct (acts false ls init) as [s|] eqn:E; [|vm_compute in E; discriminate E]. exists s. split.
  - eapply (acts_reach false _ ls init); [constructor| |exact E]. unfold ls. repeat (apply Forall_cons; split; [first [done|by intros (? & ? & ?)]|]). constructor.
  - vm_compute in E. injection E as <-. vm_compute. split_and!; reflexivity.
Qed.

Print Assumptions C82_submitters_race_refuted.
Print Assumptions C82_mutex_partial.
Print Assumptions C82_one_thread_partial.
