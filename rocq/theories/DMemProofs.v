(** * Proofs about DMemModel.v. *)

From stdpp Require Import prelude gmap list.
From Coq Require Import NArith Lia.
From Verif Require Import DMemModel DMemSpec.

Definition blocks_of (b : buf) : list N := [b_array b; b_node b].
(** The blocks of a deque, in the order in which its destructor frees them. *)
Definition owned (d : dq) : list N := blocks_of (d_buf d) ++ flat_map blocks_of (d_garbage d) ++ [d_vec d].

Fixpoint frees (l : list N) (h : heap) : option heap :=
  match l with [] => Some h | a :: l => match free a h with Some h1 => frees l h1 | None => None end end.
Lemma frees_app l1 l2 h : frees (l1 ++ l2) h = match frees l1 h with Some h1 => frees l2 h1 | None => None end.
Proof. revert h. induction l1 as [|a l1 IH]; intros h; cbn; [done|]. destruct (free a h); [apply IH|done]. Qed.
Lemma delete_all_frees bs h : delete_all bs h = frees (flat_map blocks_of bs) h.
Proof.
  revert h. induction bs as [|b bs IH]; intros h; [done|]. cbn. unfold delete_buf. destruct (free (b_array b) h) as [h1|]; [|done].
  destruct (free (b_node b) h1); [apply IH|done].
Qed.
Lemma dtor_frees d h : dtor d h = frees (owned d) h.
Proof.
  unfold dtor, owned, delete_buf. cbn. destruct (free (b_array (d_buf d)) h) as [h1|]; [|done]. destruct (free (b_node (d_buf d)) h1) as [h2|]; [|done].
  rewrite delete_all_frees, frees_app. destruct (frees _ h2) as [h3|]; [|done]. cbn. by destruct (free (d_vec d) h3).
Qed.
Lemma frees_all l (e : heap) : NoDup l -> (forall a, a ∈ l -> a ∉ e) -> frees l (list_to_set l ∪ e) = Some e.
Proof.
  induction l as [|a l IH]; intros Hd He; cbn; [f_equal; set_solver|]. apply NoDup_cons in Hd as [Ha Hd].
  unfold free. rewrite decide_True by set_solver.
  replace (({[a]} ∪ list_to_set l ∪ e) ∖ {[a]}) with (list_to_set l ∪ e : heap).
  - apply IH; [done|]. intros b Hb. apply He. set_solver.
  - apply set_eq. intros x. assert (a ∉ e) by (apply He; set_solver).
    assert (a ∉ (list_to_set l : heap)) by (rewrite elem_of_list_to_set; done). set_solver.
Qed.

Lemma alloc_inv n o h a h1 : alloc n o h = Some (a, h1) -> o = Some a /\ a ∉ h /\ h1 = {[a]} ∪ h /\ (n <= ptrdiff_max)%N.
Proof. unfold alloc. destruct o as [b|]; [|done]. case_decide as Hx; [done|]. intros [= -> <-]. split_and!; [done|tauto|done|lia]. Qed.
Lemma alloc_none n o h : alloc n o h = None <-> refused n o h.
Proof.
  unfold alloc, refused. destruct o as [b|]; [|split; [by left|done]]. case_decide as Hx.
  - split; [intros _|done]. destruct Hx; [right; left; eauto|by right; right].
  - split; [done|]. intros [?|[(a & [= <-] & Ha)|Hm]]; [done|tauto|tauto].
Qed.

Lemma new_buf_ret esz cap o1 o2 h b h1 : new_buf esz cap o1 o2 h = Ret b h1 ->
  h1 = list_to_set (blocks_of b) ∪ h /\ NoDup (blocks_of b) /\ (forall a, a ∈ blocks_of b -> a ∉ h) /\ (esz * cap <= ptrdiff_max)%N.
Proof.
  unfold new_buf. destruct (alloc 24 o1 h) as [[a h2]|] eqn:E1; [|done]. apply alloc_inv in E1 as (_ & Ha & -> & _).
  destruct (alloc (esz * cap) o2 _) as [[c h3]|] eqn:E2; [|by case_match]. apply alloc_inv in E2 as (_ & Hc & -> & Hm).
  intros [= <- <-]. cbn. split_and!; [set_solver| |set_solver|done]. repeat constructor; set_solver.
Qed.
Lemma new_buf_throw esz cap o1 o2 h h1 : new_buf esz cap o1 o2 h = Throw h1 -> h1 = h.
Proof.
  unfold new_buf. destruct (alloc 24 o1 h) as [[a h2]|] eqn:E1; [|by intros [= <-]]. apply alloc_inv in E1 as (_ & Ha & -> & _).
  destruct (alloc (esz * cap) o2 _) as [[c h3]|]; [done|]. unfold free. rewrite decide_True by set_solver. intros [= <-].
  apply set_eq. set_solver.
Qed.
Lemma new_buf_cases esz cap o1 o2 h : (exists b h1, new_buf esz cap o1 o2 h = Ret b h1) \/ (exists h1, new_buf esz cap o1 o2 h = Throw h1).
Proof.
  unfold new_buf. destruct (alloc 24 o1 h) as [[a h2]|] eqn:E1; [|eauto]. apply alloc_inv in E1 as (_ & Ha & -> & _).
  destruct (alloc (esz * cap) o2 _) as [[c h3]|]; [eauto|]. unfold free. rewrite decide_True by set_solver. eauto.
Qed.

Section Inv.
Context (esz : N) (Hesz : (0 < esz)%N).
Record inv (d : dq) (h e : heap) : Prop := Inv {
  i_heap : h = list_to_set (owned d) ∪ e;
  i_nodup : NoDup (owned d);
  i_out : forall a, a ∈ owned d -> a ∉ e;
  i_cap : (2 ^ N.of_nat (length (d_garbage d)) <= d_cap d)%N;
  i_max : (esz * d_cap d <= ptrdiff_max)%N;
  i_space : d_space d = reserved;
  i_items : (N.of_nat (length (d_items d)) <= d_cap d)%N
}.

Lemma few_growths g c : (2 ^ N.of_nat g <= c)%N -> (esz * c <= ptrdiff_max)%N -> g < 63.
Proof using Hesz.
  intros H1 H2. destruct (decide (g < 63)) as [|Hg]; [done|]. exfalso.
  assert (2 ^ 63 <= 2 ^ N.of_nat g)%N by (apply N.pow_le_mono_r; lia).
  assert (c <= esz * c)%N by nia. unfold ptrdiff_max in H2. lia.
Qed.

Lemma ctor_inv cap o1 o2 o3 e d h : ctor esz cap o1 o2 o3 e = Ret d h -> inv d h e.
Proof.
  unfold ctor. destruct (power_of_two cap) eqn:Hp; [|done]. destruct (new_buf esz cap o1 o2 e) as [b h1| | |] eqn:E; try done.
  apply new_buf_ret in E as (-> & Hn & Ho & Hm). destruct (alloc _ o3 _) as [[v h2]|] eqn:E3; [|done].
  apply alloc_inv in E3 as (_ & Hv & -> & _). intros [= <- <-]. unfold power_of_two in Hp. apply andb_prop in Hp as [Hz%negb_true_iff%N.eqb_neq _].
  split; cbn [d_cap d_buf d_items d_garbage d_space length owned flat_map app d_vec]; try done; try lia.
  - unfold owned. cbn in *. set_solver.
  - unfold owned. cbn [d_buf d_garbage d_vec flat_map app]. apply NoDup_app. split_and!; [done|set_solver|apply NoDup_singleton].
  - unfold owned. cbn in *. set_solver.
Qed.

(** What push does. *)
Lemma push_ok d h e v o1 o2 o3 : inv d h e ->
  match push esz v o1 o2 o3 d h with
  | Ret d' h' => inv d' h' e /\ d_items d' = d_items d ++ [v]
  | Throw h' => h' = h /\ N.of_nat (length (d_items d)) = d_cap d
  | Terminates => False
  | Undefined => (ptrdiff_max < 2 * d_cap d)%N
  end.
Proof using Hesz.
  intros [Hh Hn Ho Hc Hm Hs Hi]. unfold push. destruct (N.ltb_spec (d_cap d) (N.of_nat (length (d_items d)) + 1)) as [Hf|Hf].
  - destruct (N.ltb_spec ptrdiff_max (2 * d_cap d)) as [Hx|Hx]; [done|].
    destruct (new_buf_cases esz (2 * d_cap d) o1 o2 h) as [(b & h1 & E)|(h1 & E)]; rewrite E.
    2:{ apply new_buf_throw in E as ->. split; [done|lia]. }
    apply new_buf_ret in E as (-> & Hbn & Hbo & Hbm).
    pose proof (few_growths _ _ Hc Hm) as Hg. rewrite Hs. unfold reserved at 1.
    destruct (Nat.ltb_spec (length (d_garbage d)) 64) as [_|?]; [|lia]. split; [|done].
    assert (Eo : owned (DQ (2 * d_cap d) b (d_items d ++ [v]) (d_garbage d ++ [d_buf d]) (d_vec d) reserved) ≡ₚ blocks_of b ++ owned d).
    { unfold owned. cbn [d_buf d_garbage d_vec]. rewrite flat_map_app. cbn [flat_map]. rewrite app_nil_r. apply Permutation_app_head.
      rewrite !app_assoc. apply Permutation_app_tail. apply Permutation_app_comm. }
    split; cbn [d_cap d_garbage d_space d_items]; try done.
    + rewrite Eo, list_to_set_app_L, Hh. apply set_eq. set_solver.
    + rewrite Eo. apply NoDup_app. split_and!; [done| |done]. intros a Ha Hb. apply (Hbo a Ha). rewrite Hh. apply elem_of_union_l.
      by apply elem_of_list_to_set.
    + intros a. rewrite Eo. intros [Ha|Ha]%elem_of_app; [|by apply Ho]. intros Hb. apply (Hbo a Ha). rewrite Hh. by apply elem_of_union_r.
    + rewrite app_length. cbn [length]. replace (N.of_nat (length (d_garbage d) + 1)) with (N.succ (N.of_nat (length (d_garbage d)))) by lia.
      rewrite N.pow_succ_r'. by apply N.mul_le_mono_l.
    + rewrite app_length. cbn [length]. assert (2 ^ N.of_nat (length (d_garbage d)) <> 0)%N by (apply N.pow_nonzero; lia). lia.
  - split; [|done]. split; try done. cbn [d_items d_cap]. rewrite app_length. cbn. lia.
Qed.

Lemma alive_inv d h e : alive esz d h e -> inv d h e.
Proof using Hesz.
  induction 1 as [cap o1 o2 o3 e d h Hx|d h e v o1 o2 o3 d' h' _ IH Hx|d h e v o1 o2 o3 h' _ IH Hx|d h e _ IH|d h e _ IH|d h e a _ IH Ha|d h e a _ IH Ha].
  - by eapply ctor_inv.
  - pose proof (push_ok d h e v o1 o2 o3 IH) as H. rewrite Hx in H. apply H.
  - pose proof (push_ok d h e v o1 o2 o3 IH) as H. rewrite Hx in H. destruct H as [-> _]. done.
  - destruct IH; split; try done. cbn. assert (length (removelast (d_items d)) <= length (d_items d)); [|lia].
    destruct (d_items d) as [|z zs] using rev_ind; [done|]. rewrite removelast_last, app_length. lia.
  - destruct IH; split; try done. cbn. destruct (d_items d); cbn in *; lia.
  - destruct IH as [Hh Hn Ho ? ? ? ?]. split; try done.
    + rewrite Hh. apply set_eq. set_solver.
    + intros b Hb. specialize (Ho b Hb). assert (b <> a); [|set_solver]. intros ->. apply Ha. rewrite Hh. apply elem_of_union_l. by apply elem_of_list_to_set.
  - destruct IH as [Hh Hn Ho ? ? ? ?]. split; try done; [|set_solver].
    rewrite Hh. apply set_eq. intros x. rewrite !elem_of_difference, !elem_of_union, elem_of_difference, elem_of_list_to_set, elem_of_singleton.
    split; [tauto|]. intros [Hx|Hx]; [|tauto]. split; [by left|]. intros ->. by apply (Ho a Hx).
Qed.
End Inv.
