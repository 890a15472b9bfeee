(** * Property theorems about [basic_eventually] (C35). *)

From stdpp Require Import prelude list.
From Verif Require Import EventuallyModel EventuallySpec EventuallyProofs.

(** C35: for every type of cell, whatever was done to it before, every operation
    answers according to what the first successful store put there; an operation whose documented
    precondition does not hold is undefined, and nothing else is.  [x] ranges over
    values, references and void, with and without exceptions, hence over the
    encodings with and without a state flag.  The only histories left out are those
    in which the exception of a [try_eventually<void>] was moved out (see
    C35_moved_out_exception_refuted). *)
Theorem C35_write_once x c h l o c' r l' :
  valid_variant x -> run x c h l ->
  Forall (fun p => snd p <> RUB) h -> (v_kind x = KVoid -> exc_moved h = false) ->
  available x o = true -> step x c o = (c', r, l') ->
  (legal (content_of h) o -> r = answer (content_of h) (moved_out x h) (exc_moved h) o) /\
  (~ legal (content_of h) o -> r = RUB).
Proof.
  intros Hv Hr Hub Hnv Hav Hs.
  destruct (step_inv x c h l o c' r l' Hv (run_inv x c h l Hv Hr Hub Hnv) Hub Hnv Hav Hs) as [H1 H2].
  split; [|done]. intros Hl. by destruct (H1 Hl).
Qed.
Print Assumptions C35_write_once.

(** C35: hence the first store is the only one: any later store is undefined. *)
Theorem C35_second_store_undefined x c h l o c' r l' :
  valid_variant x -> run x c h l ->
  Forall (fun p => snd p <> RUB) h -> (v_kind x = KVoid -> exc_moved h = false) ->
  available x o = true -> step x c o = (c', r, l') ->
  content_of h <> Nothing -> (exists v, o = OAssign v \/ o = OStash v) -> r = RUB.
Proof.
  intros Hv Hr Hub Hnv Hav Hs Hc (v & Ho).
  destruct (C35_write_once x c h l o c' r l' Hv Hr Hub Hnv Hav Hs) as [_ H]. apply H.
  by destruct Ho as [-> | ->].
Qed.
Print Assumptions C35_second_store_undefined.

(** C35: over the whole life of the cell the stored value is constructed once and
    destroyed once, a stored exception is released once (or handed on), and nothing
    else is ever constructed or destroyed; the destructor is never undefined. *)
Theorem C35_destroyed_once x c h l :
  valid_variant x -> run x c h l ->
  Forall (fun p => snd p <> RUB) h -> (v_kind x = KVoid -> exc_moved h = false) ->
  exists c' l', destroy x c = Some (c', l') /\
    rev l ++ l' = lifetime x (content_of h) (exc_moved h).
Proof. exact (run_destroy x c h l). Qed.
Print Assumptions C35_destroyed_once.

(** C35, the restriction is needed: after its exception has been moved out, a
    [try_eventually<void>] (no state flag) claims to be empty, while a
    [try_eventually<int>] (with flag) still has an exception. *)
Theorem C35_moved_out_exception_refuted :
  exists o h1 h2 c1 c2 l1 l2,
    run (Variant KVoid true) c1 h1 l1 /\ run (Variant KVal true) c2 h2 l2 /\
    map fst h1 = map fst h2 /\ Forall (fun p => snd p <> RUB) h1 /\
    available (Variant KVoid true) o = true /\ available (Variant KVal true) o = true /\
    (step (Variant KVoid true) c1 o).1.2 = RBool true /\ (step (Variant KVal true) c2 o).1.2 = RBool false.
Proof.
  exists OEmpty, [(OMoveExc, RExc (Some 7)); (OStash 7, RUnit)], [(OMoveExc, RExc (Some 7)); (OStash 7, RUnit)].
  do 4 eexists. split; [|split; [|split; [done|split]]].
  - eapply run_op; [eapply run_op; [apply run_new|done|reflexivity]|done|reflexivity].
  - eapply run_op; [eapply run_op; [apply run_new|done|reflexivity]|done|reflexivity].
  - by repeat constructor.
  - done.
Qed.
Print Assumptions C35_moved_out_exception_refuted.

(** Non-vacuity: for each of the five admissible types a history with a failed
    store (where there is one), queries, a store and a read. *)
Definition try_ops (x : variant) (os : list op) : cell * list (op * res) * list life :=
  fold_left (fun '(c, h, l) o => let '(c', r, l') := step x c o in (c', (o, r) :: h, rev l' ++ l))
            os (construct x, [], []).

Lemma try_ops_run x os : Forall (fun o => available x o = true) os ->
  let '(c, h, l) := try_ops x os in run x c h l.
Proof.
  intros Hav. unfold try_ops.
  assert (H : forall c h l, run x c h l ->
    let '(c', h', l') := fold_left (fun '(c, h, l) o => let '(c', r, l') := step x c o in (c', (o, r) :: h, rev l' ++ l)) os (c, h, l) in
    run x c' h' l'); [|apply (H _ _ _ (run_new x))].
  induction os as [|o os IH]; intros c h l Hr; [done|]. cbn [fold_left].
  apply Forall_cons in Hav as [Ho Hav].
  destruct (step x c o) as [[c' r] l'] eqn:Hs. apply (IH Hav). by eapply run_op.
Qed.

Example C35_example_value :
  (try_ops (Variant KVal true) [OEmpty; OAssignThrow 3; OEmpty; OAssign 5; OHasValue; ODeref; OMoveOut; OHasException]).1.2
  = [(OHasException, RBool false); (OMoveOut, RVal (Some 5)); (ODeref, RVal (Some 5)); (OHasValue, RBool true);
     (OAssign 5, RUnit); (OEmpty, RBool true); (OAssignThrow 3, RThrow 3); (OEmpty, RBool true)].
Proof. reflexivity. Qed.
Example C35_example_ref :
  (try_ops (Variant KRef false) [OEmpty; OAssign 5; OEmpty; ODeref; OMoveOut; ODeref; OAssign 6]).1.2
  = [(OAssign 6, RUB); (ODeref, RVal (Some 5)); (OMoveOut, RVal (Some 5)); (ODeref, RVal (Some 5)); (OEmpty, RBool false);
     (OAssign 5, RUnit); (OEmpty, RBool true)].
Proof. reflexivity. Qed.
Example C35_example_void :
  (try_ops (Variant KVoid true) [OHasException; OStash 9; OHasException; OException]).1.2
  = [(OException, RExc (Some 9)); (OHasException, RBool true); (OStash 9, RUnit); (OHasException, RBool false)].
Proof. reflexivity. Qed.
Example C35_example_legal :
  let '(c, h, l) := try_ops (Variant KRef true) [OEmpty; OStash 4] in
  run (Variant KRef true) c h l /\ Forall (fun p => snd p <> RUB) h /\ legal (content_of h) OException /\
  ~ legal (content_of h) (OAssign 1) /\ destroy (Variant KRef true) c = Some (Cell UDead (Some SException), [LExcEnd 4]).
Proof.
  split; [apply (try_ops_run (Variant KRef true) [OEmpty; OStash 4]); by repeat constructor|].
  split; [by repeat constructor|]. split; [by exists 4|]. by split.
Qed.
