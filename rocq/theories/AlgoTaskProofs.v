(** * for_each and fold as tasks of the runtime: proofs for C67 and C68. *)

From stdpp Require Import prelude gmap list.
From Coq Require Import NArith ZArith Lia.
From Verif Require Import RuntimeModel RuntimeSpec RuntimeTermSpec RuntimeHist RuntimeTree AlgoTaskModel AlgoTaskSpec.
Local Open Scope nat_scope.

Notation tpair := (fun T => (ct_task T, ct_outcome T)).

(** ** Unfolding *)

Definition frob (t : task) : task :=
  match t with
  | Ret v => Ret v
  | Throw e => Throw e
  | Fork m st c k => Fork m st c k
  | Call m st c k => Call m st c k
  | Join k => Join k
  | Switch sk d k => Switch sk d k
  | Stash e k => Stash e k
  | Where k => Where k
  end.
Lemma frob_eq t : t = frob t.
Proof. by destruct t. Qed.

Lemma for_each_n_unfold fn pj n xs :
  for_each_n fn pj n xs =
  if decide (length xs = 0) then Ret 0%Z
  else if decide (length xs <= n) then each fn pj xs
  else both (for_each_n fn pj n (firstn (length xs / 2) xs)) (for_each_n fn pj n (skipn (length xs / 2) xs))
         (fun _ => Ret 0%Z).
Proof.
  rewrite (frob_eq (for_each_n fn pj n xs)).
  change (frob (for_each_n fn pj n xs)) with (frob (if decide (length xs = 0) then Ret 0%Z
    else if decide (length xs <= n) then each fn pj xs
    else both (for_each_n fn pj n (firstn (length xs / 2) xs)) (for_each_n fn pj n (skipn (length xs / 2) xs))
         (fun _ => Ret 0%Z))).
  symmetry. apply frob_eq.
Qed.

Lemma for_each_1_unfold fn pj xs :
  for_each_1 fn pj xs =
  match xs with
  | [] => Ret 0%Z
  | [x] => each fn pj [x]
  | _ => both (for_each_1 fn pj (firstn (length xs / 2) xs)) (for_each_1 fn pj (skipn (length xs / 2) xs))
           (fun _ => Ret 0%Z)
  end.
Proof.
  rewrite (frob_eq (for_each_1 fn pj xs)).
  destruct xs as [|x [|y xs]]; [done|exact (eq_sym (frob_eq (each fn pj [x])))|done].
Qed.

Lemma fold_n_unfold bop pj ub n xs :
  fold_n bop pj ub n xs =
  if decide (length xs <= n) then
    match xs with
    | [] => Throw ub
    | x :: xs => use pj x (try_ (fun v => fold_loop bop pj v xs))
    end
  else both (fold_n bop pj ub n (firstn (length xs / 2) xs)) (fold_n bop pj ub n (skipn (length xs / 2) xs))
         (combine bop ub).
Proof.
  rewrite (frob_eq (fold_n bop pj ub n xs)).
  change (frob (fold_n bop pj ub n xs)) with (frob (if decide (length xs <= n) then
    match xs with
    | [] => Throw ub
    | x :: xs => use pj x (try_ (fun v => fold_loop bop pj v xs))
    end
  else both (fold_n bop pj ub n (firstn (length xs / 2) xs)) (fold_n bop pj ub n (skipn (length xs / 2) xs))
         (combine bop ub))).
  symmetry. apply frob_eq.
Qed.

Lemma fold_1_unfold bop pj ub xs :
  fold_1 bop pj ub xs =
  match xs with
  | [] => Throw ub
  | [x] => use pj x (try_ Ret)
  | _ => both (fold_1 bop pj ub (firstn (length xs / 2) xs)) (fold_1 bop pj ub (skipn (length xs / 2) xs))
           (combine bop ub)
  end.
Proof.
  rewrite (frob_eq (fold_1 bop pj ub xs)).
  destruct xs as [|x [|y xs]]; [done|exact (eq_sym (frob_eq (use pj x (try_ Ret))))|done].
Qed.

(** A list of two or more elements and its halves. *)
Lemma half_lt (len : nat) : 2 <= len -> 0 < len / 2 < len.
Proof. intros H. split; [apply Nat.div_str_pos; lia|apply Nat.div_lt; lia]. Qed.

Lemma halves {A} (xs : list A) : 2 <= length xs ->
  let l := firstn (length xs / 2) xs in let r := skipn (length xs / 2) xs in
  xs = l ++ r /\ 0 < length l < length xs /\ 0 < length r < length xs.
Proof.
  intros H. pose proof (half_lt _ H). cbn zeta. rewrite firstn_length, skipn_length, firstn_skipn. split; [done|]. lia.
Qed.

(** ** The rules and termination *)

Section rules.
Context (nw : nat) (af : bool).

Lemma use_scoped {A} (u : ufun A) x k :
  follows_rules nw u -> (forall o, scoped nw 0 false (k o)) -> scoped nw 0 false (use u x k).
Proof.
  intros Hu Hk. destruct u as [f|f]; [apply Hk|]. unfold use, just. constructor; [done|done|apply Hu|..].
  - intros cl. cbn [orb negb]. destruct cl; apply Hk.
  - intros e. apply Hk.
Qed.

Lemma try_scoped k o : (forall v, scoped nw 0 false (k v)) -> scoped nw 0 false (try_ k o).
Proof. intros Hk. destruct o; [apply Hk|constructor]. Qed.

Lemma both_scoped c1 c2 k :
  scoped nw 0 false c1 -> scoped nw 0 false c2 -> (forall cs, scoped nw 0 false (k cs)) ->
  scoped nw 0 false (both c1 c2 k).
Proof.
  intros H1 H2 Hk.
  assert (HJ : forall n x, scoped nw n x (both_join k)).
  { intros n x. constructor. intros cs [e|]; [constructor|apply Hk]. }
  assert (HC : scoped nw 1 true (both_call c2 k)).
  { constructor; [done|done|done|by intros; apply HJ|]. intros e. constructor. apply HJ. }
  constructor; try done. intros e. constructor.
Qed.

(** Ends whatever its children did before. *)
Definition hh (t : task) : Prop := forall X L, halts af X L t.

Lemma use_halts {A} (u : ufun A) x k : ends af u -> (forall o, hh (k o)) -> hh (use u x k).
Proof.
  intros Hu Hk X L. destruct u as [f|f]; [apply Hk|]. unfold use, just. constructor; [apply Hu|..]; try done.
  - intros cl _. destruct cl; apply Hk.
  - intros _. apply Hk.
Qed.

Lemma try_halts k o : (forall v, hh (k v)) -> hh (try_ k o).
Proof. intros Hk. destruct o; [apply Hk|intros X L; constructor]. Qed.

Lemma both_halts c1 c2 k : hh c1 -> hh c2 -> (forall cs, hh (k cs)) -> hh (both c1 c2 k).
Proof.
  intros H1 H2 Hk X L.
  assert (HJ : hh (both_join k)).
  { intros X' L'. constructor. intros cs [e|] _ _; [constructor|apply Hk]. }
  assert (HC : hh (both_call c2 k)).
  { intros X' L'. unfold both_call. apply ha_call; [apply H2|intros; apply HJ|done|done|]. intros _. constructor. apply HJ. }
  unfold both. apply ha_fork; [apply H1|apply HC|done|done|done|]. intros _. constructor.
Qed.

Section for_each.
Context (fn pj : ufun Z).

Lemma each_scoped xs : follows_rules nw fn -> follows_rules nw pj -> well_scoped nw (each fn pj xs).
Proof.
  intros Hf Hp. induction xs as [|x xs IH]; [constructor|]. cbn. apply use_scoped; [done|]. intros o.
  apply try_scoped. intros v. apply use_scoped; [done|]. intros o'. by apply try_scoped.
Qed.

Lemma each_halts xs : ends af fn -> ends af pj -> hh (each fn pj xs).
Proof.
  intros Hf Hp. induction xs as [|x xs IH]; [intros X L; constructor|]. cbn. apply use_halts; [done|]. intros o.
  apply try_halts. intros v. apply use_halts; [done|]. intros o'. by apply try_halts.
Qed.

(** Induction over the two recursive functions. *)
Lemma for_each_n_ind (P : list Z -> task -> Prop) n :
  0 < n ->
  (forall xs, P xs (each fn pj xs)) ->
  (forall l r c1 c2, P l c1 -> P r c2 ->
    c1 = for_each_n fn pj n l -> c2 = for_each_n fn pj n r ->
    P (l ++ r) (both c1 c2 (fun _ => Ret 0%Z))) ->
  forall xs, P xs (for_each_n fn pj n xs).
Proof.
  intros Hn He Hb xs. remember (length xs) as len eqn:El. revert xs El.
  induction (lt_wf len) as [len _ IH]. intros xs ->. rewrite for_each_n_unfold.
  case_decide as D0; [destruct xs; [apply (He [])|done]|]. case_decide as D1; [apply He|].
  destruct (halves xs ltac:(lia)) as (E & H1 & H2). cbn zeta in *. rewrite E at 1.
  apply Hb; try done; (eapply IH; [|done]); lia.
Qed.

Lemma for_each_1_ind (P : list Z -> task -> Prop) :
  P [] (Ret 0%Z) -> (forall x, P [x] (each fn pj [x])) ->
  (forall l r c1 c2, P l c1 -> P r c2 ->
    c1 = for_each_1 fn pj l -> c2 = for_each_1 fn pj r ->
    P (l ++ r) (both c1 c2 (fun _ => Ret 0%Z))) ->
  forall xs, P xs (for_each_1 fn pj xs).
Proof.
  intros H0 He Hb xs. remember (length xs) as len eqn:El. revert xs El.
  induction (lt_wf len) as [len _ IH]. intros xs ->. rewrite for_each_1_unfold.
  destruct xs as [|x [|y xs]]; [done|done|].
  destruct (halves (x :: y :: xs) ltac:(cbn; lia)) as (E & H1 & H2). cbn zeta in *. rewrite E at 1.
  apply Hb; try done; (eapply IH; [|done]); lia.
Qed.

Lemma for_each_scoped n xs :
  0 < n -> follows_rules nw fn -> follows_rules nw pj -> well_scoped nw (for_each fn pj n xs).
Proof.
  intros Hn Hf Hp. unfold for_each. case_decide.
  - apply (use_scoped (UAsync (for_each_1 fn pj)) xs); [|intros o; apply try_scoped; intros; constructor].
    intros ys. apply (for_each_1_ind (fun _ t => well_scoped nw t)); [constructor|intros; by apply each_scoped|].
    intros. apply both_scoped; [done|done|]. intros; constructor.
  - apply (use_scoped (UAsync (for_each_n fn pj n)) xs); [|intros o; apply try_scoped; intros; constructor].
    intros ys. apply (for_each_n_ind (fun _ t => well_scoped nw t)); [done|intros; by apply each_scoped|].
    intros. apply both_scoped; [done|done|]. intros; constructor.
Qed.

Lemma for_each_terminates n xs :
  0 < n -> ends af fn -> ends af pj -> terminates af (for_each fn pj n xs).
Proof.
  intros Hn Hf Hp. unfold for_each. case_decide.
  - apply (use_halts (UAsync (for_each_1 fn pj)) xs); [|intros o; apply try_halts; intros v X L; constructor].
    intros ys. cut (hh (for_each_1 fn pj ys)); [intros X; apply X|].
    apply (for_each_1_ind (fun _ t => hh t)); [intros X L; constructor|intros; by apply each_halts|].
    intros. apply both_halts; [done|done|]. intros cs X L; constructor.
  - apply (use_halts (UAsync (for_each_n fn pj n)) xs); [|intros o; apply try_halts; intros v X L; constructor].
    intros ys. cut (hh (for_each_n fn pj n ys)); [intros X; apply X|].
    apply (for_each_n_ind (fun _ t => hh t)); [done|intros; by apply each_halts|].
    intros. apply both_halts; [done|done|]. intros cs X L; constructor.
Qed.
End for_each.

Section fold.
Context (bop : ufun (Z * Z)) (pj : ufun Z) (ub : exn) (opt : option Z -> Z).

(** The chunked version needs an ordinary operation: an async one is awaited in a way that leaves
    its exception pending at the end of the task (C13). *)

Lemma loop_scoped lhs xs : ordinary bop -> follows_rules nw pj -> well_scoped nw (fold_loop bop pj lhs xs).
Proof.
  intros Ho Hp. revert lhs. induction xs as [|x xs IH]; intros lhs; [constructor|]. cbn. apply use_scoped; [done|]. intros o.
  apply try_scoped. intros v. destruct bop as [f|f]; [|done]. by apply try_scoped.
Qed.

Lemma loop_halts lhs xs : ordinary bop -> ends af pj -> hh (fold_loop bop pj lhs xs).
Proof.
  intros Ho Hp. revert lhs. induction xs as [|x xs IH]; intros lhs; [intros X L; constructor|]. cbn. apply use_halts; [done|]. intros o.
  apply try_halts. intros v. destruct bop as [f|f]; [|done]. by apply try_halts.
Qed.

Lemma combine_scoped cs : follows_rules nw bop -> well_scoped nw (combine bop ub cs).
Proof.
  intros Hb. unfold combine. destruct cs as [|[|a|] [|[|b|] [|]]]; try constructor.
  apply use_scoped; [done|]. intros o. apply try_scoped. intros; constructor.
Qed.

Lemma combine_halts cs : ends af bop -> hh (combine bop ub cs).
Proof.
  intros Hb. unfold combine. destruct cs as [|[|a|] [|[|b|] [|]]]; try (intros X L; constructor).
  apply use_halts; [done|]. intros o. apply try_halts. intros v X L; constructor.
Qed.

Lemma fold_n_ind (P : list Z -> task -> Prop) n :
  0 < n ->
  (forall x xs, P (x :: xs) (use pj x (try_ (fun v => fold_loop bop pj v xs)))) ->
  (forall l r c1 c2, P l c1 -> P r c2 -> 0 < length l -> 0 < length r -> P (l ++ r) (both c1 c2 (combine bop ub))) ->
  forall xs, 0 < length xs -> P xs (fold_n bop pj ub n xs).
Proof.
  intros Hn He Hb xs. remember (length xs) as len eqn:El. revert xs El.
  induction (lt_wf len) as [len _ IH]. intros xs -> Hl. rewrite fold_n_unfold.
  case_decide as D1; [destruct xs; [cbn in Hl; lia|apply He]|].
  destruct (halves xs ltac:(lia)) as (E & H1 & H2). cbn zeta in *. rewrite E at 1.
  apply Hb; try lia; (eapply IH; [|done|]); lia.
Qed.

Lemma fold_1_ind (P : list Z -> task -> Prop) :
  (forall x, P [x] (use pj x (try_ Ret))) ->
  (forall l r c1 c2, P l c1 -> P r c2 -> 0 < length l -> 0 < length r -> P (l ++ r) (both c1 c2 (combine bop ub))) ->
  forall xs, 0 < length xs -> P xs (fold_1 bop pj ub xs).
Proof.
  intros He Hb xs. remember (length xs) as len eqn:El. revert xs El.
  induction (lt_wf len) as [len _ IH]. intros xs -> Hl. rewrite fold_1_unfold.
  destruct xs as [|x [|y xs]]; [cbn in Hl; lia|done|].
  destruct (halves (x :: y :: xs) ltac:(cbn; lia)) as (E & H1 & H2). cbn zeta in *. rewrite E at 1.
  apply Hb; try lia; (eapply IH; [|done|]); lia.
Qed.

Lemma fold_scoped n xs :
  0 < n -> (n <> 1 -> ordinary bop) -> follows_rules nw bop -> follows_rules nw pj ->
  well_scoped nw (fold bop pj ub opt n xs).
Proof.
  intros Hn Ho Hb Hp. unfold fold. destruct xs as [|x xs]; [constructor|]. case_decide as D.
  - unfold just. constructor; try done.
    + apply (fold_1_ind (fun _ t => well_scoped nw t)); [| |cbn; lia].
      * intros y. apply use_scoped; [done|]. intros o. apply try_scoped. intros; constructor.
      * intros. apply both_scoped; [done|done|]. intros; by apply combine_scoped.
    + intros []; constructor.
    + intros e; constructor.
  - unfold just. constructor; try done.
    + apply (fold_n_ind (fun _ t => well_scoped nw t)); [done| | |cbn; lia].
      * intros y ys. apply use_scoped; [done|]. intros o. apply try_scoped. intros; apply loop_scoped; auto.
      * intros. apply both_scoped; [done|done|]. intros; by apply combine_scoped.
    + intros []; constructor.
    + intros e; constructor.
Qed.

Lemma fold_terminates n xs :
  0 < n -> (n <> 1 -> ordinary bop) -> ends af bop -> ends af pj -> terminates af (fold bop pj ub opt n xs).
Proof.
  intros Hn Ho Hb Hp. unfold fold. destruct xs as [|x xs]; [constructor|]. case_decide as D.
  - unfold just. constructor; try done.
    + cut (hh (fold_1 bop pj ub (x :: xs))); [intros X; apply X|].
      apply (fold_1_ind (fun _ t => hh t)); [| |cbn; lia].
      * intros y. apply use_halts; [done|]. intros o. apply try_halts. intros v X L; constructor.
      * intros. apply both_halts; [done|done|]. intros; by apply combine_halts.
    + intros [] _; constructor.
    + intros _; constructor.
  - unfold just. constructor; try done.
    + cut (hh (fold_n bop pj ub n (x :: xs))); [intros X; apply X|].
      apply (fold_n_ind (fun _ t => hh t)); [done| | |cbn; lia].
      * intros y ys. apply use_halts; [done|]. intros o. apply try_halts. intros; apply loop_halts; auto.
      * intros. apply both_halts; [done|done|]. intros; by apply combine_halts.
    + intros [] _; constructor.
    + intros _; constructor.
Qed.
End fold.
End rules.

(** ** Serial runs *)

Section runs.
Context (af : bool).

(** What the use of a function contributes to a run. *)
Inductive gives {A} : ufun A -> A -> outcome -> list calltree -> Prop :=
| gi_sync f x : gives (USync f) x (f x) []
| gi_async f x T : ct_task T = f x -> serial af T -> gives (UAsync f) x (ct_outcome T) [T]
| gi_fail f x : af = true -> gives (UAsync f) x (OExc EBadAlloc) [].

Lemma gives_may {A} (u : ufun A) x o Ts : gives u x o Ts -> may_give af u x o \/ no_memory af EBadAlloc /\ o = OExc EBadAlloc.
Proof.
  intros [f y|f y T E Hs|f y E]; [by left| |by right].
  left. cbn. rewrite <- E. by apply serial_eval.
Qed.

(** Inversion. *)
Lemma srun_call m st c k cs X o ks : srun af cs X (Call m st c k) o ks ->
  (exists oc r X' ks', ks = (c, oc) :: ks' /\ call_ret m st (cell_of st oc) (X ∪ exn_of st oc) r X' /\
    srun af (cs ++ [cell_of st oc]) X' (k r) o ks') \/
  (af = true /\ srun af cs X (k (CExn EBadAlloc)) o ks).
Proof. inversion 1; subst; [left; eauto 10|right; eauto]. Qed.
Lemma srun_fork m st c k cs X o ks : srun af cs X (Fork m st c k) o ks ->
  (exists oc r X' ks', ks = (c, oc) :: ks' /\ fork_ret m st (cell_of st oc) (X ∪ exn_of st oc) r X' /\
    srun af (cs ++ [cell_of st oc]) X' (k r) o ks') \/
  (af = true /\ srun af cs X (k (FExn EBadAlloc)) o ks).
Proof. inversion 1; subst; [left; eauto 10|right; eauto]. Qed.
Lemma srun_join k cs X o ks : srun af cs X (Join k) o ks -> exists r, join_ret X r /\ srun af cs ∅ (k cs r) o ks.
Proof. inversion 1; subst; eauto. Qed.
Lemma srun_stash e k cs X o ks : srun af cs X (Stash e k) o ks -> srun af cs (X ∪ {[e]}) k o ks.
Proof. by inversion 1. Qed.
Lemma srun_ret v cs X o ks : srun af cs X (Ret v) o ks -> o = OVal v /\ ks = [].
Proof. by inversion 1. Qed.
Lemma srun_throw e cs X o ks : srun af cs X (Throw e) o ks -> o = OExc e /\ ks = [].
Proof. by inversion 1. Qed.

Lemma use_srun {A} (u : ufun A) x k cs o Ts :
  srun af cs ∅ (use u x k) o (map tpair Ts) -> Forall (serial af) Ts ->
  exists ox Ts0 Ts' cs', Ts = Ts0 ++ Ts' /\ gives u x ox Ts0 /\ Forall (serial af) Ts' /\
    srun af cs' ∅ (k ox) o (map tpair Ts').
Proof.
  intros H HT. destruct u as [f|f]; cbn in H.
  { exists (f x), [], Ts, cs. split_and!; [done|constructor|done|done]. }
  apply srun_call in H as [(oc & r & X' & ks & E & Hr & Hk)|(Haf & Hk)].
  - destruct Ts as [|T Ts]; [done|]. injection E as E1 E2 E3. apply Forall_cons in HT as (HT1 & HT2).
    exists oc, [T], Ts, (cs ++ [cell_of true oc]). subst oc ks. split_and!; [done|by constructor|done|].
    inversion Hr; subst; try done. replace (∅ ∪ exn_of true (ct_outcome T)) with (∅ : gset exn) in Hk by (destruct (ct_outcome T); set_solver).
    destruct (ct_outcome T); exact Hk.
  - exists (OExc EBadAlloc), [], Ts, cs. split_and!; [done|by constructor|done|exact Hk].
Qed.

Lemma join_srun k cs X o ks :
  srun af cs X (both_join k) o ks ->
  (X = ∅ /\ srun af cs ∅ (k cs) o ks) \/ (exists e, e ∈ X /\ o = OExc e /\ ks = []).
Proof.
  intros (r & Hj & Hk)%srun_join. inversion Hj; subst; [by left|].
  right. apply srun_throw in Hk as (-> & ->). eauto.
Qed.

Lemma both_srun c1 c2 k o Ts :
  srun af [] ∅ (both c1 c2 k) o (map tpair Ts) -> Forall (serial af) Ts ->
  (Ts = [] /\ af = true /\ o = OExc EBadAlloc) \/
  (exists T1, Ts = [T1] /\ ct_task T1 = c1 /\ serial af T1 /\ af = true /\
    exists e, o = OExc e /\ (e = EBadAlloc \/ ct_outcome T1 = OExc e)) \/
  (exists T1 T2 Ts', Ts = T1 :: T2 :: Ts' /\ ct_task T1 = c1 /\ ct_task T2 = c2 /\ serial af T1 /\ serial af T2 /\
    Forall (serial af) Ts' /\
    ((exists e, Ts' = [] /\ o = OExc e /\ (ct_outcome T1 = OExc e \/ ct_outcome T2 = OExc e)) \/
     (exists a b, ct_outcome T1 = OVal a /\ ct_outcome T2 = OVal b /\
        srun af [CVal a; CVal b] ∅ (k [CVal a; CVal b]) o (map tpair Ts')))).
Proof.
  intros [(oc & r & X' & ks & E & Hr & Hk)|(Haf & Hk)]%srun_fork HT; cycle 1.
  { apply srun_throw in Hk as (-> & E). left. by destruct Ts. }
  right. destruct Ts as [|T1 Ts]; [done|]. injection E as E1 E2 E3. apply Forall_cons in HT as (HT1 & HT2). subst.
  assert (Hx : forall e o', e ∈ exn_of false o' -> o' = OExc e).
  { intros e [v|e']; cbn; [set_solver|]. intros ->%elem_of_singleton. done. }
  assert (r = FAsync /\ X' = ∅ ∪ exn_of false (ct_outcome T1)) as (-> & ->) by (by inversion Hr).
  cbn [both_k] in Hk. apply srun_call in Hk as [(oc2 & r2 & X2 & ks2 & E & Hr2 & Hk)|(Haf & Hk)].
  - right. destruct Ts as [|T2 Ts]; [done|]. injection E as E1 E2 E3. apply Forall_cons in HT2 as (HT2 & HT3). subst.
    exists T1, T2, Ts. split_and!; try done.
    assert (r2 = CDone (cell_of false (ct_outcome T2)) /\ X2 = ∅ ∪ exn_of false (ct_outcome T1) ∪ exn_of false (ct_outcome T2)) as (-> & ->)
      by (inversion Hr2; subst; done).
    apply join_srun in Hk as [(Ex & Hk)|(e & He & -> & E)].
    + right. destruct (ct_outcome T1) as [a|e1]; [|cbn in Ex; set_solver].
      destruct (ct_outcome T2) as [b|e2]; [|cbn in Ex; set_solver]. exists a, b. done.
    + left. exists e. split_and!; [by destruct Ts|done|]. set_unfold in He. destruct He as [[[]|He]|He]; [left|right]; by apply Hx.
  - left. exists T1. apply srun_stash, join_srun in Hk as [(Ex & Hk)|(e & He & -> & E)]; [set_solver|].
    split_and!; try done; [by destruct Ts|]. exists e. split; [done|].
    set_unfold in He. destruct He as [[[]|He]|He]; [right; by apply Hx|by left].
Qed.

(** ** for_each *)

Section for_each.
Context (fn : Z -> task) (pj : ufun Z) (p : Z -> Z) (E : exn -> Prop) (lab : task -> label) (key : Z -> Z).
Hypothesis Hpj : computes af E pj p.
Hypothesis Hfn : forall v, lab (fn v) = LUser (key v).
Hypothesis Hlp : forall f x, pj = UAsync f -> lab (f x) = LOther.

Notation calls Ts := (concat (map (user_calls lab) Ts)).

Notation visits := (visits af E (fun x => key (p x))).

Lemma user_call_fn T v : ct_task T = fn v -> user_calls lab T = [(key v, ct_outcome T)].
Proof using Hfn. destruct T as [t o Ts]. cbn. intros ->. by rewrite Hfn. Qed.

Lemma pj_calls x ox Ts : gives pj x ox Ts ->
  calls Ts = [] /\ match ox with OVal v => v = p x | OExc e => E e \/ no_memory af e end.
Proof using Hpj Hlp.
  intros Hg. split.
  - destruct Hg as [f y|f y T Et Hs|f y Ha] eqn:Eg; try done. cbn. rewrite app_nil_r.
    destruct T as [t o Ts]. cbn in *. subst t. by rewrite (Hlp f y eq_refl).
  - destruct (gives_may _ _ _ _ Hg) as [Hm|[Hm ->]]; [|by right].
    specialize (Hpj x ox Hm). destruct ox; [done|by left].
Qed.

Lemma each_visits xs cs o Ts :
  srun af cs ∅ (each (UAsync fn) pj xs) o (map tpair Ts) -> Forall (serial af) Ts -> visits xs o (calls Ts).
Proof using Hpj Hlp Hfn.
  revert cs o Ts. induction xs as [|x xs IH]; intros cs o Ts H HT.
  { apply srun_ret in H as (-> & Et). destruct Ts; [|done]. left. split_and!; [done|done|constructor]. }
  cbn [each] in H. apply use_srun in H as (ox & Ts0 & Ts1 & cs1 & -> & Hg & HT1 & H1); [|done].
  destruct (pj_calls _ _ _ Hg) as (C0 & Hox). rewrite map_app, concat_app, C0. cbn [app].
  destruct ox as [v|e]; cbn [try_] in H1.
  2:{ apply srun_throw in H1 as (-> & Et). destruct Ts1; [|done]. right. exists e. split_and!; [done|apply sublist_nil_l|auto]. }
  subst v. apply use_srun in H1 as (oy & Ts2 & Ts3 & cs2 & -> & Hg2 & HT3 & H2); [|done].
  rewrite map_app, concat_app. inversion Hg2 as [|f y T Et Hs|f y Ha]; subst; cbn [map concat app].
  - rewrite (user_call_fn T _ Et), app_nil_r. cbn [app]. destruct (ct_outcome T) as [w|e] eqn:Eo; cbn [try_] in H2.
    + apply IH in H2; [|done]. destruct H2 as [(-> & E1 & E2)|(e & -> & E1 & E2)].
      * left. split_and!; [done|by cbn; rewrite E1|]. constructor; [by eexists|done].
      * right. exists e. split_and!; [done|by apply sublist_skip|].
        destruct E2 as [(v & Hv)|E2]; [left; exists v; by right|by right].
    + apply srun_throw in H2 as (-> & E2). destruct Ts3; [|done]. right. exists e. cbn. split_and!; [done|..].
      * apply sublist_skip, sublist_nil_l.
      * left. exists (key (p x)). by left.
  - cbn [try_] in H2. apply srun_throw in H2 as (-> & E2). destruct Ts3; [|done]. right. exists EBadAlloc. cbn.
    split_and!; [done|apply sublist_nil_l|by right; right].
Qed.

Lemma both_visits l r c1 c2 o Ts :
  srun af [] ∅ (both c1 c2 (fun _ => Ret 0%Z)) o (map tpair Ts) -> Forall (serial af) Ts ->
  (forall T, serial af T -> ct_task T = c1 -> visits l (ct_outcome T) (user_calls lab T)) ->
  (forall T, serial af T -> ct_task T = c2 -> visits r (ct_outcome T) (user_calls lab T)) ->
  visits (l ++ r) o (calls Ts).
Proof using.
  intros H HT V1 V2.
  assert (HS : forall xs o' cs, visits xs o' cs -> map fst cs `sublist_of` map (fun x => key (p x)) xs).
  { intros xs o' cs [(_ & -> & _)|(e & _ & H' & _)]; done. }
  apply both_srun in H as [(-> & Haf & ->)|[(T1 & -> & E1 & S1 & Haf & e & -> & He)|(T1 & T2 & Ts' & -> & E1 & E2 & S1 & S2 & _ & H)]]; [..|done].
  - right. exists EBadAlloc. split_and!; [done|apply sublist_nil_l|by right; right].
  - right. exists e. cbn. rewrite app_nil_r. specialize (V1 T1 S1 E1). split_and!; [done|..].
    + rewrite map_app. by apply sublist_inserts_r, (HS _ (ct_outcome T1)).
    + destruct He as [->|He]; [by right; right|]. rewrite He in V1. destruct V1 as [(? & _)|(e' & [= <-] & _ & V)]; done.
  - specialize (V1 T1 S1 E1). specialize (V2 T2 S2 E2). cbn. destruct H as [(e & -> & -> & He)|(a & b & Ea & Eb & H)].
    + right. exists e. cbn. rewrite app_nil_r. split_and!; [done|..].
      * rewrite !map_app. apply sublist_app; by eapply HS.
      * destruct He as [He|He].
        -- rewrite He in V1. destruct V1 as [(? & _)|(e' & [= <-] & _ & V)]; [done|].
           destruct V as [(v & V)|V]; [left; exists v; apply elem_of_app; by left|by right].
        -- rewrite He in V2. destruct V2 as [(? & _)|(e' & [= <-] & _ & V)]; [done|].
           destruct V as [(v & V)|V]; [left; exists v; apply elem_of_app; by right|by right].
    + apply srun_ret in H as (-> & Et). destruct Ts'; [|done]. cbn. rewrite app_nil_r.
      rewrite Ea in V1. rewrite Eb in V2.
      destruct V1 as [(_ & F1 & G1)|(? & ? & _)]; [|done]. destruct V2 as [(_ & F2 & G2)|(? & ? & _)]; [|done].
      left. split_and!; [done|by rewrite !map_app, F1, F2|by apply Forall_app].
Qed.

Lemma for_each_n_visits n xs T :
  0 < n -> (forall ys, lab (for_each_n (UAsync fn) pj n ys) = LInternal) ->
  serial af T -> ct_task T = for_each_n (UAsync fn) pj n xs -> visits xs (ct_outcome T) (user_calls lab T).
Proof using Hpj Hlp Hfn.
  intros Hn HL. revert T.
  cut (forall T, serial af T -> ct_task T = for_each_n (UAsync fn) pj n xs -> visits xs (ct_outcome T) (concat (map (user_calls lab) (let 'Node _ _ Ts := T in Ts)))).
  { intros Hc T HT Et. specialize (Hc T HT Et). destruct T as [t o Ts]. cbn in *. subst t. by rewrite HL. }
  apply (for_each_n_ind (UAsync fn) pj (fun xs t => forall T, serial af T -> ct_task T = t ->
    visits xs (ct_outcome T) (concat (map (user_calls lab) (let 'Node _ _ Ts := T in Ts))))); [done|..].
  - intros ys T HT Et. destruct HT as [t o Ts Hr Hs]. cbn in *. subst t. by eapply each_visits.
  - intros l r c1 c2 V1 V2 -> -> T HT Et. destruct HT as [t o Ts Hr Hs]. cbn in *. subst t.
    eapply both_visits; [done|done|..]; intros T' HT' Et'.
    + specialize (V1 T' HT' Et'). destruct T' as [t' o' Ts']. cbn in *. subst t'. by rewrite HL.
    + specialize (V2 T' HT' Et'). destruct T' as [t' o' Ts']. cbn in *. subst t'. by rewrite HL.
Qed.

Lemma for_each_1_visits xs T :
  (forall ys, lab (for_each_1 (UAsync fn) pj ys) = LInternal) ->
  serial af T -> ct_task T = for_each_1 (UAsync fn) pj xs -> visits xs (ct_outcome T) (user_calls lab T).
Proof using Hpj Hlp Hfn.
  intros HL. revert T.
  cut (forall T, serial af T -> ct_task T = for_each_1 (UAsync fn) pj xs -> visits xs (ct_outcome T) (concat (map (user_calls lab) (let 'Node _ _ Ts := T in Ts)))).
  { intros Hc T HT Et. specialize (Hc T HT Et). destruct T as [t o Ts]. cbn in *. subst t. by rewrite HL. }
  apply (for_each_1_ind (UAsync fn) pj (fun xs t => forall T, serial af T -> ct_task T = t ->
    visits xs (ct_outcome T) (concat (map (user_calls lab) (let 'Node _ _ Ts := T in Ts))))).
  - intros T HT Et. destruct HT as [t o Ts Hr Hs]. cbn in *. subst t. by apply (each_visits [] [] o Ts).
  - intros x T HT Et. destruct HT as [t o Ts Hr Hs]. cbn [ct_task ct_outcome] in *. subst t. by apply (each_visits [x] [] o Ts).
  - intros l r c1 c2 V1 V2 -> -> T HT Et. destruct HT as [t o Ts Hr Hs]. cbn in *. subst t.
    eapply both_visits; [done|done|..]; intros T' HT' Et'.
    + specialize (V1 T' HT' Et'). destruct T' as [t' o' Ts']. cbn in *. subst t'. by rewrite HL.
    + specialize (V2 T' HT' Et'). destruct T' as [t' o' Ts']. cbn in *. subst t'. by rewrite HL.
Qed.

Lemma for_each_visits n xs T :
  0 < n -> (forall n ys, 0 < n -> lab (for_each_n (UAsync fn) pj n ys) = LInternal) ->
  (forall ys, lab (for_each_1 (UAsync fn) pj ys) = LInternal) ->
  (forall n ys, lab (for_each (UAsync fn) pj n ys) = LInternal) ->
  serial af T -> ct_task T = for_each (UAsync fn) pj n xs -> visits xs (ct_outcome T) (user_calls lab T).
Proof using Hpj Hlp Hfn.
  intros Hn L1 L2 L3 HT Et. destruct HT as [t o Ts Hr Hs]. cbn in *. subst t. rewrite L3.
  assert (HJ : forall (c : list Z -> task), (forall T, serial af T -> ct_task T = c xs -> visits xs (ct_outcome T) (user_calls lab T)) ->
    srun af [] ∅ (use (UAsync c) xs (try_ (fun _ => Ret 0%Z))) o (map tpair Ts) -> visits xs o (calls Ts)).
  { intros c Hc H. apply use_srun in H as (ox & Ts0 & Ts1 & cs1 & -> & Hg & HT1 & H1); [|done].
    rewrite map_app, concat_app. inversion Hg as [|f y T Et HT|f y Ha]; subst.
    - specialize (Hc T HT Et). cbn. rewrite app_nil_r. destruct (ct_outcome T) as [v|e] eqn:Eo; cbn in H1.
      + apply srun_ret in H1 as (-> & E1). destruct Ts1; [|done]. cbn. rewrite app_nil_r.
        destruct Hc as [(_ & Hc)|(? & ? & _)]; [by left|done].
      + apply srun_throw in H1 as (-> & E1). destruct Ts1; [|done]. cbn. rewrite app_nil_r. done.
    - cbn in H1. apply srun_throw in H1 as (-> & E1). destruct Ts1; [|done]. right. exists EBadAlloc. cbn.
      split_and!; [done|apply sublist_nil_l|by right; right]. }
  unfold for_each in Hr. case_decide.
  - eapply HJ; [|exact Hr]. intros T. by apply for_each_1_visits.
  - eapply HJ; [|exact Hr]. intros T. apply for_each_n_visits; [done|]. intros; by apply L1.
Qed.
End for_each.

(** ** fold *)

Section fold.
Context (bop : ufun (Z * Z)) (pj : ufun Z) (ub : exn) (opt : option Z -> Z).
Context (op : Z -> Z -> Z) (p : Z -> Z) (E : exn -> Prop).
Hypothesis Hpj : computes af E pj p.
Hypothesis Hbop : computes af E bop (fun ab => op ab.1 ab.2).
Hypothesis Hassoc : forall a b c, op a (op b c) = op (op a b) c.

Definition folds (r : option Z) (o : outcome) : Prop :=
  (exists v, r = Some v /\ o = OVal v) \/ (exists e, o = OExc e /\ (E e \/ no_memory af e)).

Lemma fold_left_assoc (g : Z -> Z) xs a b :
  fold_left (fun a y => op a (g y)) xs (op a b) = op a (fold_left (fun a y => op a (g y)) xs b).
Proof using Hassoc. revert a b. induction xs as [|x xs IH]; intros a b; [done|]. cbn. by rewrite <- Hassoc, IH. Qed.

Lemma left_fold_app l r a b :
  left_fold op p l = Some a -> left_fold op p r = Some b -> left_fold op p (l ++ r) = Some (op a b).
Proof using Hassoc.
  destruct l as [|x l]; [done|]. destruct r as [|y r]; [done|]. cbn. intros [= <-] [= <-].
  rewrite fold_left_app. cbn. by rewrite fold_left_assoc.
Qed.

Lemma computes_gives {A} (u : ufun A) g x o Ts : computes af E u g -> gives u x o Ts ->
  match o with OVal v => v = g x | OExc e => E e \/ no_memory af e end.
Proof using.
  intros Hc Hg. destruct (gives_may _ _ _ _ Hg) as [Hm|[Hm ->]]; [|by right].
  specialize (Hc x o Hm). destruct o; [done|by left].
Qed.

Lemma loop_folds cs lhs xs o Ts :
  ordinary bop -> srun af cs ∅ (fold_loop bop pj lhs xs) o (map tpair Ts) -> Forall (serial af) Ts ->
  folds (Some (fold_left (fun a y => op a (p y)) xs lhs)) o.
Proof using Hpj Hbop.
  intros Ho. revert cs lhs o Ts. induction xs as [|x xs IH]; intros cs lhs o Ts H HT.
  { apply srun_ret in H as (-> & _). left. eauto. }
  cbn [fold_loop] in H. apply use_srun in H as (ox & Ts0 & Ts1 & cs1 & -> & Hg & HT1 & H1); [|done].
  pose proof (computes_gives _ _ _ _ _ Hpj Hg) as Hox. destruct ox as [v|e]; cbn [try_] in H1.
  2:{ apply srun_throw in H1 as (-> & _). right. eauto. }
  subst v. destruct bop as [f|f]; [|done]. pose proof (Hbop (lhs, p x) (f (lhs, p x)) eq_refl) as Hw.
  destruct (f (lhs, p x)) as [w|e]; cbn [try_] in H1.
  2:{ apply srun_throw in H1 as (-> & _). right. eauto. }
  subst w. cbn. by eapply IH.
Qed.

Lemma combine_folds cs a b o Ts :
  srun af cs ∅ (combine bop ub [CVal a; CVal b]) o (map tpair Ts) -> Forall (serial af) Ts -> folds (Some (op a b)) o.
Proof using Hbop.
  intros H HT. cbn [combine] in H. apply use_srun in H as (ox & Ts0 & Ts1 & cs1 & -> & Hg & HT1 & H1); [|done].
  pose proof (computes_gives _ _ _ _ _ Hbop Hg) as Hox. destruct ox as [v|e]; cbn [try_] in H1.
  - apply srun_ret in H1 as (-> & _). left. cbn in Hox. subst. eauto.
  - apply srun_throw in H1 as (-> & _). right. eauto.
Qed.

Lemma both_folds l r c1 c2 o Ts :
  0 < length l -> 0 < length r ->
  srun af [] ∅ (both c1 c2 (combine bop ub)) o (map tpair Ts) -> Forall (serial af) Ts ->
  (forall T, serial af T -> ct_task T = c1 -> folds (left_fold op p l) (ct_outcome T)) ->
  (forall T, serial af T -> ct_task T = c2 -> folds (left_fold op p r) (ct_outcome T)) ->
  folds (left_fold op p (l ++ r)) o.
Proof using Hbop Hassoc.
  intros Hl Hr H HT V1 V2.
  assert (HX : forall r e, folds r (OExc e) -> E e \/ no_memory af e).
  { intros r' e [(v & _ & ?)|(e' & [= <-] & ?)]; done. }
  apply both_srun in H as [(-> & Haf & ->)|[(T1 & -> & E1 & S1 & Haf & e & -> & He)|(T1 & T2 & Ts' & -> & E1 & E2 & S1 & S2 & HT' & H)]]; [..|done].
  - right. exists EBadAlloc. split; [done|]. by right.
  - right. exists e. split; [done|]. destruct He as [->|He]; [by right|]. specialize (V1 T1 S1 E1). rewrite He in V1. by eapply HX.
  - specialize (V1 T1 S1 E1). specialize (V2 T2 S2 E2). destruct H as [(e & -> & -> & He)|(a & b & Ea & Eb & H)].
    + right. exists e. split; [done|]. destruct He as [He|He]; rewrite He in *; by eapply HX.
    + rewrite Ea in V1. rewrite Eb in V2.
      destruct V1 as [(v & F1 & [= <-])|(? & ? & _)]; [|done]. destruct V2 as [(v & F2 & [= <-])|(? & ? & _)]; [|done].
      rewrite (left_fold_app _ _ _ _ F1 F2). by eapply combine_folds.
Qed.

Lemma fold_folds n xs o :
  0 < n -> (n <> 1 -> ordinary bop) -> eval af (fold bop pj ub opt n xs) o ->
  (o = OVal (opt (left_fold op p xs))) \/ (exists e, o = OExc e /\ (E e \/ no_memory af e)).
Proof using Hpj Hbop Hassoc.
  intros Hn Ho H. destruct (eval_serial _ _ _ _ _ H) as (Ts & Hr & Hs). unfold fold in Hr.
  destruct xs as [|x xs]; [apply srun_ret in Hr as (-> & _); by left|].
  assert (HJ : forall (c : list Z -> task),
    (forall T, serial af T -> ct_task T = c (x :: xs) -> folds (left_fold op p (x :: xs)) (ct_outcome T)) ->
    srun af [] ∅ (use (UAsync c) (x :: xs) (try_ (fun v => Ret (opt (Some v))))) o (map tpair Ts) ->
    (o = OVal (opt (left_fold op p (x :: xs)))) \/ (exists e, o = OExc e /\ (E e \/ no_memory af e))).
  { intros c Hc HR. apply use_srun in HR as (ox & Ts0 & Ts1 & cs1 & -> & Hg & HT1 & H1); [|done].
    inversion Hg as [|f y T Et HT|f y Ha]; subst.
    - specialize (Hc T HT Et). destruct (ct_outcome T) as [v|e]; cbn [try_] in H1.
      + apply srun_ret in H1 as (-> & _). destruct Hc as [(w & Hw & [= <-])|(? & ? & _)]; [|done]. rewrite Hw. by left.
      + apply srun_throw in H1 as (-> & _). destruct Hc as [(? & _ & ?)|Hc]; [done|]. by right.
    - apply srun_throw in H1 as (-> & _). right. exists EBadAlloc. split; [done|]. by right. }
  case_decide as D.
  - eapply HJ; [|exact Hr]. apply (fold_1_ind bop pj ub (fun xs t => forall T, serial af T -> ct_task T = t ->
      folds (left_fold op p xs) (ct_outcome T))); [| |cbn; lia].
    + intros y T [t o' Ts' Hr' Hs'] Et. cbn [ct_task ct_outcome] in *. subst t.
      apply use_srun in Hr' as (ox & Ts0 & Ts1 & cs1 & -> & Hg & HT1 & H1); [|done].
      pose proof (computes_gives _ _ _ _ _ Hpj Hg) as Hox. destruct ox as [v|e]; cbn [try_] in H1.
      * apply srun_ret in H1 as (-> & _). left. subst. by eexists.
      * apply srun_throw in H1 as (-> & _). right. eauto.
    + intros l r c1 c2 V1 V2 Hl Hr' T [t o' Ts' Hrr Hs'] Et. cbn [ct_task ct_outcome] in *. subst t. by eapply both_folds.
  - eapply HJ; [|exact Hr]. apply (fold_n_ind bop pj ub (fun xs t => forall T, serial af T -> ct_task T = t ->
      folds (left_fold op p xs) (ct_outcome T))); [done| | |cbn; lia].
    + intros y ys T [t o' Ts' Hr' Hs'] Et. cbn [ct_task ct_outcome] in *. subst t.
      apply use_srun in Hr' as (ox & Ts0 & Ts1 & cs1 & -> & Hg & HT1 & H1); [|done].
      pose proof (computes_gives _ _ _ _ _ Hpj Hg) as Hox. destruct ox as [v|e]; cbn [try_] in H1.
      * subst v. eapply loop_folds; eauto.
      * apply srun_throw in H1 as (-> & _). right. eauto.
    + intros l r c1 c2 V1 V2 Hl Hr' T [t o' Ts' Hrr Hs'] Et. cbn [ct_task ct_outcome] in *. subst t. by eapply both_folds.
Qed.
End fold.
End runs.
