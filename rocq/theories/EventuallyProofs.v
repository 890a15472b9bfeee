From stdpp Require Import prelude list.
From Verif Require Import EventuallyModel EventuallySpec.

(** The cell that represents a content. *)
Definition represents (x : variant) (ct : content) (vm em : bool) (c : cell) : Prop :=
  match ct with
  | Nothing => c = construct x
  | Value v =>
      match v_kind x with
      | KVoid => False
      | KRef => c = Cell (UPtr (Some v)) (if implicit_state x then None else Some SValue)
      | KVal => c = Cell (UVal (if vm then None else Some v)) (Some SValue)
      end
  | Exn e => v_exc x = true /\
      c = Cell (UExc (if em then None else Some e)) (if implicit_state x then None else Some SException)
  end.

(** What has happened to the stored object so far (oldest first). *)
Definition life_now (x : variant) (ct : content) (em : bool) : list life :=
  match ct, v_kind x with
  | Nothing, _ => []
  | Value v, KVal => [LVal v]
  | Value _, _ => []
  | Exn e, _ => if em then [LExc e; LExcGiven e] else [LExc e]
  end.

Lemma legal_nothing_dec ct o : legal ct o \/ ~ legal ct o.
Proof. destruct o, ct; simpl; try (left; done); try (right; naive_solver); left; eauto. Qed.

(** Void cells with a moved-out exception are excluded: C35_..._refuted. *)
Definition no_void_move (x : variant) (h : list (op * res)) : Prop :=
  v_kind x = KVoid -> exc_moved h = false.

Lemma exc_moved_cons o r h : exc_moved ((o, r) :: h) = (match o, r with OMoveExc, RExc _ => true | _, _ => false end) || exc_moved h.
Proof. unfold exc_moved. simpl. by destruct o, r. Qed.
Lemma moved_out_cons x o r h :
  moved_out x ((o, r) :: h) =
  bool_decide (v_kind x = KVal) && match o, r with OMoveOut, RVal _ => true | _, _ => false end || moved_out x h.
Proof. unfold moved_out. simpl. destruct (bool_decide _); [|done]. by destruct o, r. Qed.

Definition no_ub (h : list (op * res)) : Prop := Forall (fun p => snd p <> RUB) h.

Record inv (x : variant) (c : cell) (h : list (op * res)) (l : list life) : Prop := {
  i_rep : represents x (content_of h) (moved_out x h) (exc_moved h) c;
  i_life : rev l = life_now x (content_of h) (exc_moved h);
  i_mv : moved_out x h = true -> exists v, content_of h = Value v;
  i_me : exc_moved h = true -> exists e, content_of h = Exn e;
}.

Local Ltac fin := first [reflexivity | discriminate | by eauto | by (intros; discriminate)
  | by (intros; eauto) | (split; fin) | (rewrite app_nil_r; fin) ].
Local Ltac fin2 := match goal with
  | H : KVoid <> KVoid \/ false = true |- _ => by destruct H as [H|H]
  | H : exists _, Nothing = _ |- _ => by destruct H
  | H : exists _, Value _ = Exn _ |- _ => by destruct H
  | H : exists _, Exn _ = Value _ |- _ => by destruct H
  end.
(** One operation on a represented cell. *)
Lemma step_inv x c h l o c' r l' :
  valid_variant x -> inv x c h l -> no_ub h -> no_void_move x h -> available x o = true ->
  step x c o = (c', r, l') ->
  (legal (content_of h) o ->
     r = answer (content_of h) (moved_out x h) (exc_moved h) o /\
     (no_void_move x ((o, r) :: h) -> inv x c' ((o, r) :: h) (rev l' ++ l))) /\
  (~ legal (content_of h) o -> r = RUB).
Proof.
  intros Hv [Hrep Hl Hmv Hme] Hub Hnv Hav Hs.
  unfold no_void_move in *.
  assert (Hnothing : content_of h = Nothing -> moved_out x h = false /\ exc_moved h = false).
  { intros E. split.
    - destruct (moved_out x h); [|done]. destruct Hmv as [? ?]; [done|congruence].
    - destruct (exc_moved h); [|done]. destruct Hme as [? ?]; [done|congruence]. }
  assert (Hem : forall v, content_of h = Value v -> exc_moved h = false).
  { intros v E. destruct (exc_moved h); [|done]. destruct Hme as [? ?]; [done|congruence]. }
  assert (Hvm : forall v, content_of h = Exn v -> moved_out x h = false).
  { intros v E. destruct (moved_out x h); [|done]. destruct Hmv as [? ?]; [done|congruence]. }
  assert (Hvk : moved_out x h = true -> v_kind x = KVal).
  { unfold moved_out. intros E. apply andb_prop in E as [E _]. by apply bool_decide_eq_true in E. }
  assert (Hcons : forall r0, content_of ((o, r0) :: h) =
            match content_of h, o, r0 with
            | Nothing, OAssign v, RUnit => Value v
            | Nothing, OStash e, RUnit => Exn e
            | c, _, _ => c
            end) by done.
  destruct x as [k e].
  assert (Hinv : represents (Variant k e) (content_of ((o, r) :: h)) (moved_out (Variant k e) ((o, r) :: h)) (exc_moved ((o, r) :: h)) c' ->
                 rev (rev l' ++ l) = life_now (Variant k e) (content_of ((o, r) :: h)) (exc_moved ((o, r) :: h)) ->
                 (moved_out (Variant k e) ((o, r) :: h) = true -> exists v, content_of ((o, r) :: h) = Value v) ->
                 (exc_moved ((o, r) :: h) = true -> exists e, content_of ((o, r) :: h) = Exn e) ->
                 inv (Variant k e) c' ((o, r) :: h) (rev l' ++ l)) by (intros; by split).
  rewrite !rev_app_distr, rev_involutive, Hl in Hinv.
  rewrite !moved_out_cons, !exc_moved_cons in *. rewrite !Hcons in Hinv. clear Hcons Hub Hl.
  generalize dependent (inv (Variant k e) c' ((o, r) :: h) (rev l' ++ l)). intros P Hinv.
  revert Hrep Hnv Hinv Hnothing Hem Hvm Hvk. clear Hmv Hme.
  generalize (moved_out (Variant k e) h) (exc_moved h) (content_of h). clear h l.
  intros vm em ct Hrep Hnv Hinv Hnothing Hem Hvm Hvk.
  unfold valid_variant, available, represents, life_now in *. cbn [v_kind v_exc] in *.
  assert (Hvv : k <> KVoid \/ e = true) by done. clear Hv.
  destruct ct as [|v|ex];
    [destruct (Hnothing eq_refl) as [-> ->]| |]; clear Hnothing.
  - subst c. split; [intros Hleg|intros Hleg];
      destruct k, e, o; cbn in *; simplify_eq; try done; try (exfalso; fin2); try (split; [done|]);
      try (intros _; apply Hinv; cbn; fin).
  - rewrite (Hem v eq_refl) in *. clear Hem Hvm.
    destruct k; [done| |]; subst c;
      split; intros Hleg; destruct e, o, vm; cbn in *; simplify_eq; try done; try (exfalso; fin2);
      try (by specialize (Hvk eq_refl)); try (split; [done|]); try (intros _; apply Hinv; cbn; fin); try (by exfalso; apply Hleg; eauto).
  - rewrite (Hvm ex eq_refl) in *. clear Hem Hvm.
    destruct Hrep as [-> ->].
    split; intros Hleg; destruct k, o, em; cbn in *; simplify_eq; try done; try (exfalso; fin2);
      try (by specialize (Hnv eq_refl)); try (split; [done|]); try (intros Hm; by specialize (Hm eq_refl));
      try (intros _; apply Hinv; cbn; fin); try (by exfalso; apply Hleg; eauto).
Qed.

Lemma run_inv x c h l :
  valid_variant x -> run x c h l -> no_ub h -> no_void_move x h -> inv x c h l.
Proof.
  intros Hv Hr. induction Hr as [|c h l o c' r l' Hr IH Hav Hs]; intros Hub Hnv.
  - split; [done|done| |]; [|done]. unfold moved_out. simpl. by rewrite andb_false_r.
  - assert (Hub' : no_ub h) by (by apply Forall_cons in Hub as [_ ?]).
    assert (Hnv' : no_void_move x h).
    { intros Hk. specialize (Hnv Hk). rewrite exc_moved_cons in Hnv. by apply orb_false_elim in Hnv as [_ ?]. }
    specialize (IH Hub' Hnv').
    destruct (step_inv x c h l o c' r l' Hv IH Hub' Hnv' Hav Hs) as [H1 H2].
    destruct (legal_nothing_dec (content_of h) o) as [Hl|Hl].
    + apply H1; done.
    + apply Forall_cons in Hub as [Hub _]. simpl in Hub. by rewrite (H2 Hl) in Hub.
Qed.

Lemma run_destroy x c h l :
  valid_variant x -> run x c h l -> no_ub h -> no_void_move x h ->
  exists c' l', destroy x c = Some (c', l') /\
    rev l ++ l' = lifetime x (content_of h) (exc_moved h).
Proof.
  intros Hv Hr Hub Hnv. destruct (run_inv x c h l Hv Hr Hub Hnv) as [Hrep Hl Hmv Hme].
  rewrite Hl. unfold represents in Hrep. unfold valid_variant, no_void_move in *.
  assert (Hem : forall ct, content_of h = ct -> (match ct with Exn _ => False | _ => True end) -> exc_moved h = false).
  { intros ct E Hct. destruct (exc_moved h); [|done]. destruct Hme as [? E']; [done|]. by rewrite E' in E; subst. }
  specialize (Hem _ eq_refl). clear Hl Hmv Hme.
  destruct x as [k e]. revert Hrep Hem. generalize (content_of h). intros ct Hrep Hem.
  unfold destroy, lifetime, life_now. cbn [v_kind v_exc] in *.
  destruct ct as [|v|ex].
  - subst c.     destruct k, e; cbn; eauto; by destruct Hv.
  - destruct k; [done| |]; subst c; destruct e; cbn; eauto.
  - destruct Hrep as [-> ->]. destruct k, (exc_moved h); cbn; eauto; by specialize (Hnv eq_refl).
Qed.
