(** * What a user may rely on: lazy_pool. *)

From stdpp Require Import prelude list.
From Verif Require Import PoolCommon PoolFair LazyModel.

Section Spec.
Context (n nd : nat) (dom : nat -> nat).

(** Worker [w] sleeps. *)
Definition asleep (w : nat) (s : st) : Prop := exists k, pc s w = WBlocked k.

(** Some thread is inside a call that submits a job: it has put a job on the list of
    worker [w], or has announced a new job to the domain of [w], and will still wake
    all sleepers of that domain. *)
Definition submitting (w : nat) (s : st) : Prop :=
  exists a, ag s a = APushed w \/ ag s a = AWake (dom w).

(** Worker [u] is in its search loop: it looks into its own list and tries to steal
    (again) before it goes to sleep, or has just found something and will tell others. *)
Definition searching (u : nat) (s : st) : Prop :=
  match pc s u with
  | WTop | WPop1 | WSteal | WPrep | WPop2 _ | WCancelJob _ | WStop _ | WSub _ | WAct _ | WCancel | WUnreg | TSub _ => True
  | WWait k => k <> epoch s (dom u)          (* the wait returns at once *)
  | _ => False
  end.

(** Worker [u] will still wake somebody in domain [d] if need be. *)
Definition will_wake (d u : nat) (s : st) : Prop :=
  match pc s u with
  | TNote _ | TWake _ | XCancel | XNote | XWake => dom u = d
  | TDom _ i | TDomNote _ i | TDomWake _ i => i <= d
  | _ => False
  end.

(** Fair executions: workers and the destructor keep running unless they cannot;
    calls that submit a job finish. *)
Record fair (sg : nat -> st) (l : nat -> option lab) : Prop := Fair {
  fr_run : run (step n nd dom) init sg l;
  fr_worker : forall w, w < n -> fair_to (step n nd dom) (fun x => exists c, x = LWorker w c) sg l;
  fr_agent : forall a i, ag (sg i) a <> AIdle -> exists j w k, i <= j /\ l j = Some (LAgent a w k);
  fr_dtor : forall i, dt (sg i) <> DIdle -> exists j, i <= j /\ (l j = Some LDtor \/ step n nd dom LDtor (sg j) = Blocked)
}.

(** From time [i] on no job is submitted and nothing is stolen. *)
Definition work_ends (i : nat) (sg : nat -> st) (l : nat -> option lab) : Prop :=
  forall j, i <= j ->
    (forall w x, ~ emits (step n nd dom) sg l j (EvPush w x)) /\
    (forall w c, l j = Some (LWorker w c) -> pc (sg j) w = WSteal -> c_steal c = false).
End Spec.
