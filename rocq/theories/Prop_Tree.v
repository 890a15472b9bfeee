(** * C66: a parallel execution runs the tasks of a serial run, and no others.

    Vocabulary: RuntimeSpec.v.  [recorded h f T]: according to the history, [T] is the tree of
    the tasks below [f], with their bodies, their outcomes and the order in which their parents
    created them.  [serial af T]: [T] is what one gets if the program is run as an ordinary
    recursive program, every fork and call being a function call. *)

From stdpp Require Import prelude gmap list.
From Coq Require Import NArith ZArith Lia.
From Verif Require Import RuntimeModel RuntimeSpec RuntimeHist RuntimeHist2 RuntimeTree RuntimeExamples.
Local Open Scope N_scope.

(** Once task [f] has ended, everything it did, with all its descendants, is a serial run of
    [f]'s body: no task was dropped, none ran twice and none ran with another result. *)
Theorem C66_serial_run nw af s h f o :
  reach nw af s h -> outcome_in f h = Some o ->
  exists T, recorded h f T /\ serial af T /\ body_in f h = Some (ct_task T) /\ ct_outcome T = o /\
    forall T', recorded h f T' -> T' = T.
Proof.
  intros HR Ho. destruct (reach_hist _ _ _ _ HR) as (Hh & _).
  destruct (recorded_serial af h f o (g_evs _ _ _ Hh) Ho) as (T & H1 & H2 & H3). exists T. split_and!; try done.
  - by inversion H1.
  - intros T' H'. by eapply recorded_unique.
Qed.

(** A program that does not look at schedule-dependent facts runs the same tasks whatever the
    number of workers and the schedule. *)
Theorem C66_same_tasks t nw1 s1 h1 f1 o1 nw2 s2 h2 f2 o2 :
  pure true t ->
  reach nw1 false s1 h1 -> body_in f1 h1 = Some t -> outcome_in f1 h1 = Some o1 ->
  reach nw2 false s2 h2 -> body_in f2 h2 = Some t -> outcome_in f2 h2 = Some o2 ->
  exists T, recorded h1 f1 T /\ recorded h2 f2 T /\ serial false T.
Proof.
  intros Hp R1 B1 O1 R2 B2 O2.
  destruct (C66_serial_run _ _ _ _ _ _ R1 O1) as (T1 & A1 & S1 & E1 & _).
  destruct (C66_serial_run _ _ _ _ _ _ R2 O2) as (T2 & A2 & S2 & E2 & _).
  exists T1. split; [done|]. split; [|done].
  assert (t = ct_task T1) as Et1 by congruence. assert (t = ct_task T2) as Et2 by congruence.
  rewrite (serial_det T1 S1 true T2); [done| |done|congruence]. by rewrite <- Et1.
Qed.

(** The two executions of C03 have this tree; one of them is interleaved and has steals. *)
Definition pure_tree : calltree :=
  Node prog_pure (OVal 11%Z) [Node (Ret 1%Z) (OVal 1%Z) []; Node (Throw (EUser 2)) (OExc (EUser 2)) []].
Ltac rec_tree :=
  apply rec_node; [vm_compute; reflexivity|vm_compute; reflexivity|];
  match goal with |- Forall2 _ (map fst (kids_in ?f ?h)) _ =>
    let v := eval vm_compute in (map fst (kids_in f h)) in replace (map fst (kids_in f h)) with v by (vm_compute; reflexivity) end;
  repeat (apply List.Forall2_cons; [rec_tree|]); try apply List.Forall2_nil.
Example C66_nonvacuous :
  pure true prog_pure /\
  reach 2 false (demo_s 100 eager2 prog_pure) (demo_h 100 eager2 prog_pure) /\
  reach 2 false (demo_s 100 lazy2 prog_pure) (demo_h 100 lazy2 prog_pure) /\
  recorded (demo_h 100 eager2 prog_pure) 0 pure_tree /\
  recorded (demo_h 100 lazy2 prog_pure) 0 pure_tree /\
  demo_h 100 eager2 prog_pure <> demo_h 100 lazy2 prog_pure.
Proof.
  split; [apply prog_pure_pure|].
  split; [apply demo_hs; [apply eager2_allowed|apply prog_pure_scoped]|].
  split; [apply demo_hs; [apply lazy2_allowed|apply prog_pure_scoped]|].
  split; [rec_tree|]. split; [rec_tree|].
  assert (length (demo_h 100 eager2 prog_pure) <> length (demo_h 100 lazy2 prog_pure)) by (vm_compute; done).
  congruence.
Qed.

Print Assumptions C66_serial_run.
Print Assumptions C66_same_tasks.
Print Assumptions C66_nonvacuous.
