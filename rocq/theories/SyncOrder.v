(** * The order of user code: what the traces of SyncModel.v look like, and which thread
    knows what when user code runs. *)

From stdpp Require Import prelude gmap list relations.
From Coq Require Import NArith Lia.
From Verif Require Import RuntimeModel RuntimeSpec RuntimeInv RuntimeStep RuntimeStep3 RuntimeSafe SyncSpec SyncModel
  SyncViews SyncInv SyncTrans SyncAccess SyncStep SyncStep2 SyncMove SyncJoin SyncMove2 SyncMove3 SyncEnd SyncNew SyncMain.
Local Open Scope N_scope.

(** ** Identities of tasks *)

Definition sub (s s' : state) : Prop :=
  s_nextf s <= s_nextf s' /\
  (forall q fr, s_frames s' !! q = Some fr -> live s q \/ q = s_nextf s) /\
  (forall r, sem s r <= sem s' r).

Lemma sub_refl s : sub s s.
Proof. split_and!; [lia|intros q fr H; left; by exists fr|lia]. Qed.
Lemma sub_worker s s1 i w : sub s s1 -> sub s (put_worker i w s1).
Proof. done. Qed.
Lemma sub_stack s s1 x l : sub s s1 -> sub s (put_stack x l s1).
Proof. done. Qed.
Lemma sub_res s s1 f o : sub s s1 -> sub s (put_res f o s1).
Proof. done. Qed.
Lemma sub_frame s s1 f fr : live s f \/ f = s_nextf s -> sub s s1 -> sub s (put_frame f fr s1).
Proof.
  intros Hf (H1 & H2 & H3). split_and!; [done| |done]. intros q qr. cbn. rewrite lookup_insert_Some.
  intros [(<- & _)|(_ & H)]; [done|by eapply H2].
Qed.
Lemma sub_frame' s s1 f x fr : s_frames s !! f = Some x -> sub s s1 -> sub s (put_frame f fr s1).
Proof. intros Hf. apply sub_frame. left. by exists x. Qed.
Lemma sub_del s s1 f : sub s s1 -> sub s (del_frame f s1).
Proof.
  intros (H1 & H2 & H3). split_and!; [done| |done]. intros q qr. cbn. rewrite lookup_delete_Some. intros (_ & H). by eapply H2.
Qed.
Lemma sub_bump_f s s1 : sub s s1 -> sub s (bump_f s1).
Proof. intros (H1 & H2 & H3). split_and!; [cbn; lia|done|done]. Qed.
Lemma sub_bump_s s s1 : sub s s1 -> sub s (bump_s s1).
Proof. done. Qed.
Lemma sub_sem s s1 r n : sem s r <= n -> sub s s1 -> sub s (put_sem r n s1).
Proof.
  intros Hn (H1 & H2 & H3). split_and!; [done|done|]. intros r'. unfold sem. cbn. destruct (decide (r' = r)) as [->|Hne].
  - by rewrite lookup_insert.
  - rewrite lookup_insert_ne by done. apply H3.
Qed.

Ltac sub_auto :=
  repeat first
    [ assumption | apply sub_refl
    | match goal with
      | |- sub _ (put_worker _ _ _) => apply sub_worker
      | |- sub _ (put_stack _ _ _) => apply sub_stack
      | |- sub _ (put_res _ _ _) => apply sub_res
      | |- sub _ (bump_s _) => apply sub_bump_s
      | |- sub _ (bump_f _) => apply sub_bump_f
      | |- sub _ (del_frame _ _) => apply sub_del
      | |- sub _ (put_sem _ _ _) => apply sub_sem; [lia|]
      | |- sub _ (put_frame _ _ _) => first [eapply sub_frame'; [eassumption|] | apply sub_frame; [by right|]]
      end ].

Lemma sub_join_resume s s1 i w f fr x k tr s' evs :
  s_frames s !! f = Some x -> sub s s1 -> join_resume i w f fr k s1 tr = Next s' evs -> sub s s'.
Proof. intros Hf Hs H. unfold join_resume in H. repeat case_match; try done; simplify_eq. sub_auto. Qed.
Lemma sub_take_resume s s1 i w f fr x k tr s' evs :
  s_frames s !! f = Some x -> sub s s1 -> take_stack_join_resume i w f fr k s1 tr = Next s' evs -> sub s s'.
Proof.
  intros Hf Hs H. unfold take_stack_join_resume in H. repeat case_match; try done.
  eapply sub_join_resume; [exact Hf| |exact H]. sub_auto.
Qed.
Lemma sub_idle s s1 i w tr s' evs : sub s s1 -> to_idle i w s1 tr = Next s' evs -> sub s s'.
Proof. intros Hs H. unfold to_idle in H. repeat case_match; try done; simplify_eq. sub_auto. Qed.
Lemma sub_destroy s w f fr s1 : destroy w f fr s = Some s1 -> sub s s1.
Proof. intros H. unfold destroy in H. repeat case_match; try done; simplify_eq. sub_auto. Qed.
Lemma sub_call_resume seen s s1 i w f fr x m st k tr s' evs :
  s_frames s !! f = Some x -> sub s s1 -> call_resume seen i w f fr m st k s1 tr = Next s' evs -> sub s s'.
Proof. intros Hf Hs H. unfold call_resume in H. repeat case_match; try done; simplify_eq; sub_auto. Qed.

Lemma destroy_live s w f fr s1 q qr : destroy w f fr s = Some s1 -> s_frames s1 !! q = Some qr -> s_frames s !! q = Some qr.
Proof.
  intros H Hq. unfold destroy in H. repeat case_match; try done; simplify_eq. cbn in Hq. by apply lookup_delete_Some in Hq as (_ & ?).
Qed.

Lemma step_sub l s s' evs : step l s = Next s' evs -> sub s s'.
Proof.
  intros H. destruct l as [i fail|i|i|i v|d t0]; cbn [step] in H.
  - unfold wstep in H. destruct (s_workers s !! i) as [w|] eqn:Hi; [|done].
    destruct (w_pc w) as [|f|f|p|p| |f|b|] eqn:Hpc.
    + unfold resume_submitted in H. repeat case_match; try done; simplify_eq; sub_auto.
    + unfold resume_stolen in H. repeat case_match; try done; simplify_eq; sub_auto.
    + destruct (s_frames s !! f) as [fr|] eqn:Hf; [|done].
      destruct (f_rp fr) as [t|m st k pre|m st k|k|d t|e| |] eqn:Hr; try done.
      * destruct t as [v|e|m st c k|m st c k|k|sk d k|e k|k]; cbn [run_task] in H.
        -- unfold deliver in H. repeat case_match; try done; simplify_eq; sub_auto.
        -- unfold deliver in H. repeat case_match; try done; simplify_eq; sub_auto.
        -- case_match; simplify_eq; unfold spawn_child; sub_auto.
        -- case_match; simplify_eq; unfold spawn_child; sub_auto.
        -- destruct (decide (f_steals fr = 0)); [eapply sub_join_resume; [exact Hf|apply sub_refl|exact H]|].
           case_match; [eapply sub_take_resume; [exact Hf|apply sub_refl|exact H]|]. simplify_eq. sub_auto.
        -- repeat case_match; try done; simplify_eq; sub_auto.
        -- simplify_eq; sub_auto.
        -- simplify_eq; sub_auto.
      * unfold fork_resume in H. repeat case_match; try done; simplify_eq; sub_auto.
      * simplify_eq; sub_auto.
      * unfold capture in H. repeat case_match; try done; simplify_eq; sub_auto.
      * unfold finish in H. case_decide; [|done]. destruct (f_kind fr) as [|p j st|p j st] eqn:Hk.
        -- simplify_eq; sub_auto.
        -- destruct (destroy w f fr s) as [s1|] eqn:Hd; [|done]. destruct (s_frames s1 !! p) as [frp|] eqn:Hp; [|done].
           pose proof (destroy_live _ _ _ _ _ _ _ Hd Hp) as Hp0. apply sub_destroy in Hd.
           case_match; try done. eapply sub_call_resume; [exact Hp0|exact Hd|exact H].
        -- destruct (destroy w f fr s) as [s1|] eqn:Hd; [|done]. apply sub_destroy in Hd. simplify_eq. sub_auto.
      * unfold root_destroy in H. destruct (destroy w f fr s) as [s1|] eqn:Hd; [|done]. apply sub_destroy in Hd.
        eapply sub_idle; [exact Hd|exact H].
    + repeat case_match; try done; simplify_eq; sub_auto.
    + unfold final_sub in H. destruct (s_frames s !! p) as [frp|] eqn:Hp; [|done].
      repeat case_match; try done; simplify_eq; sub_auto;
        first [eapply sub_join_resume; [exact Hp| |exact H]|eapply sub_idle; [|exact H]]; sub_auto.
    + eapply sub_idle; [|exact H]. sub_auto.
    + destruct (s_frames s !! f) as [fr|] eqn:Hf; [|done]. unfold join_suspend in H.
      repeat case_match; try done; simplify_eq; sub_auto. eapply sub_take_resume; [exact Hf|apply sub_refl|exact H].
    + repeat case_match; try done; simplify_eq; sub_auto.
    + unfold self_steal in H. case_match; [eapply sub_idle; [|exact H]; apply sub_refl|].
      repeat case_match; try done; simplify_eq; sub_auto.
  - destruct (stale_inv _ _ _ _ H) as (w & f & fr & Hi & Hpc & Hf & [(k & Hr & Hz & -> & ->)|[(m & st & k & pre & Hr & H')|(p & j & st & Hr & Hk & H')]]).
    + sub_auto.
    + unfold fork_resume in H'. repeat case_match; try done; simplify_eq; sub_auto.
    + unfold finish in H'. case_decide; [|done]. rewrite Hk in H'.
      destruct (destroy w f fr s) as [s1|] eqn:Hd; [|done]. destruct (s_frames s1 !! p) as [frp|] eqn:Hp; [|done].
      pose proof (destroy_live _ _ _ _ _ _ _ Hd Hp) as Hp0. apply sub_destroy in Hd.
      case_match; try done. eapply sub_call_resume; [exact Hp0|exact Hd|exact H'].
  - unfold take in H. repeat case_match; try done; simplify_eq; sub_auto.
  - unfold steal in H. repeat case_match; try done; simplify_eq; sub_auto.
  - unfold spawn in H. repeat case_match; try done; simplify_eq; sub_auto.
Qed.

(** ** User code in the actions of a step *)

Definition codes (al : list action) : list N := omap (fun a => match a with Code f => Some f | _ => None end) al.

Lemma codes_in al q : Code q ∈ al <-> q ∈ codes al.
Proof.
  unfold codes. rewrite elem_of_list_omap. split.
  - intros H. by exists (Code q).
  - intros (a & Ha & H). destruct a; try done. by injection H as ->.
Qed.
Lemma codes_app a b : codes (a ++ b) = codes a ++ codes b.
Proof. apply omap_app. Qed.
Lemma codes_skip a l : (match a with Code _ => False | _ => True end) -> codes (a :: l) = codes l.
Proof. by destruct a. Qed.
Lemma codes_w l : codes (map Write l) = [].
Proof. induction l; done. Qed.
Lemma codes_r l : codes (map Read l) = [].
Proof. induction l; done. Qed.
Lemma codes_rethrow f fr : codes (rethrow_acts f fr) = [].
Proof. unfold rethrow_acts. by destruct (f_eflag fr). Qed.
Lemma codes_last f fr : codes (last_cell_acts f fr) = [].
Proof. unfold last_cell_acts. by destruct (length _). Qed.
Lemma codes_jr f fr : codes (join_resume_acts f fr) = [f].
Proof. unfold join_resume_acts. by rewrite !codes_app, codes_rethrow, codes_r. Qed.
Lemma codes_destroy f fr : codes (destroy_acts f fr) = [].
Proof. apply codes_w. Qed.
Lemma codes_fork seen f fr m st pre : codes (fork_resume_acts seen f fr m st pre) = [f].
Proof.
  unfold fork_resume_acts. rewrite codes_app. cbn [codes omap list_omap].
  match goal with |- codes ?x ++ _ = _ => assert (codes x = []) as ->; [|done] end.
  destruct m; try done; (case_decide; [|done]); destruct st; cbn [app]; try (apply codes_last);
    rewrite ?app_nil_l; try case_decide; try (apply codes_last);
    match goal with |- codes (Read ?l :: ?x) = _ => change (codes x = []) end;
    rewrite ?codes_app, ?codes_rethrow, ?codes_last; done.
Qed.
Lemma call_last seen f fr m st : exists pre, call_resume_acts seen f fr m st = pre ++ [Code f] /\ codes pre = [].
Proof.
  unfold call_resume_acts. rewrite app_assoc. eexists. split; [done|]. rewrite codes_app, codes_last, app_nil_r.
  destruct m, st; try done; [|by rewrite codes_rethrow]. cbn. case_decide; [by rewrite codes_rethrow|done].
Qed.
Lemma codes_take i l : codes (take_acts i l) = [].
Proof. unfold take_acts. cbn. induction l as [|f l IH]; done. Qed.
Lemma codes_pop i l : codes (pop_acts i l) = [].
Proof. by destruct l as [|? [|]]. Qed.

Lemma resume_held i w f fr k s tr s' evs :
  join_resume i w f fr k s tr = Next s' evs -> (i < length (s_workers s))%nat ->
  exists w', s_workers s' !! i = Some w' /\ w_pc w' = PRun f.
Proof.
  intros H Hi. unfold join_resume in H. repeat case_match; try done; simplify_eq. cbn.
  rewrite list_lookup_insert by done. eauto.
Qed.

Lemma code_step nw G G' l s s' evs :
  inv nw G s -> inv nw G' s' -> step l s = Next s' evs ->
  (forall q, Code q ∈ acts l s -> exists i fr, actor l s = TW i /\ held s i q /\ s_frames s !! q = Some fr /\ f_rp fr <> RSignalled) \/
  (exists i q pre fr, actor l s = TW i /\ acts l s = pre ++ [Code q] /\ codes pre = [] /\ held s' i q /\
     s_frames s !! q = Some fr /\ f_rp fr <> RSignalled).
Proof.
  intros I0 I' H. assert (Hnil : codes (acts l s) = [] ->
    (forall q, Code q ∈ acts l s -> exists i fr, actor l s = TW i /\ held s i q /\ s_frames s !! q = Some fr /\ f_rp fr <> RSignalled)).
  { intros Hn q Hq. apply codes_in in Hq. rewrite Hn in Hq. by apply elem_of_nil in Hq. }
  destruct l as [i fail|i|i|i v|d t0]; cbn [step actor acts] in *.
  - unfold wstep in H. unfold work_acts in *. destruct (s_workers s !! i) as [w|] eqn:Hi; [|done].
    destruct (w_pc w) as [|f|f|p|p| |f|b|] eqn:Hpc.
    + left. apply Hnil. destruct (w_batch w); [done|]. unfold submitted_acts. rewrite !codes_app.
      destruct (s_frames s !! _); [|done]. by case_decide.
    + left. by apply Hnil.
    + destruct (s_frames s !! f) as [fr|] eqn:Hf; [|done].
      assert (Hh : held s i f) by (eapply held_run; [done|by rewrite Hpc]).
      assert (Hone : forall al, (forall q, q ∈ codes al -> q = f) -> f_rp fr <> RSignalled -> forall q, Code q ∈ al ->
        exists i0 fr0, TW i = TW i0 /\ held s i0 q /\ s_frames s !! q = Some fr0 /\ f_rp fr0 <> RSignalled).
      { intros al Hal Hr q Hq. apply codes_in in Hq. apply Hal in Hq as ->. eauto 10. }
      destruct (f_rp fr) as [t|m st k pre|m st k|k|d t|e| |] eqn:Hr; try done.
      * left. apply Hone; [|congruence].
        destruct t as [v|e|m st c k|m st c k|k|sk d k|e k|k]; cbn [run_acts]; intros q Hq;
          [unfold deliver_acts in Hq; repeat case_match; cbn in Hq; set_solver|
           unfold deliver_acts in Hq; repeat case_match; cbn in Hq; set_solver|..].
        -- destruct fail; cbn in Hq; set_solver.
        -- destruct fail; cbn in Hq; set_solver.
        -- rewrite codes_app in Hq. case_decide; [|rewrite (codes_skip (Load _ _)) in Hq by done; case_decide];
             rewrite ?codes_app, ?codes_jr in Hq; cbn in Hq; set_solver.
        -- case_match; cbn in Hq; set_solver.
        -- unfold stash_acts in Hq. destruct (f_eflag fr); cbn in Hq; set_solver.
        -- cbn in Hq; set_solver.
      * left. apply Hone; [|congruence]. intros q Hq. rewrite codes_fork in Hq. set_solver.
      * left. apply Hone; [|congruence]. intros q Hq. cbn in Hq. set_solver.
      * left. apply Hnil. unfold capture_acts. by destruct (f_kind fr).
      * unfold finish in H. case_decide; [|done]. unfold finish_acts in *. destruct (f_kind fr) as [|p j st0|p j st0] eqn:Hk.
        -- left. by apply Hnil.
        -- right. destruct (destroy w f fr s) as [s1|] eqn:Hd; [|done]. destruct (s_frames s1 !! p) as [frp|] eqn:Hp; [|done].
           pose proof (destroy_live _ _ _ _ _ _ _ Hd Hp) as Hp0. rewrite Hp0.
           assert (Hw1 : s_workers s1 = s_workers s) by (unfold destroy in Hd; repeat case_match; try done; by simplify_eq).
           destruct (f_rp frp) as [|?|m st k| | | | | ] eqn:Hrp; try done.
           destruct (call_last true p frp m st) as (pre & Hpre & Hc). rewrite Hpre.
           exists i, p, ([Write (LFrame f); Read (LHdr f)] ++ destroy_acts f fr ++ Read (LHdr p) :: pre), frp.
           split_and!; [done| | | |done|congruence].
           ++ rewrite <- !app_assoc. done.
           ++ rewrite !codes_app, codes_destroy. done.
           ++ assert (Hw : s_workers s' !! i = Some (set_pc (PRun p) w)).
              { unfold call_resume in H. repeat case_match; try done; simplify_eq; cbn; rewrite Hw1; apply list_lookup_insert;
                  by eapply lookup_lt_Some. }
              eapply held_run; [exact Hw|done].
        -- left. apply Hnil. rewrite codes_app, codes_destroy. done.
      * left. apply Hnil. by rewrite codes_destroy.
    + left. apply Hnil. rewrite codes_app, codes_pop. by destruct (w_deque w).
    + unfold final_sub in H. unfold final_sub_acts in *. destruct (s_frames s !! p) as [frp|] eqn:Hp; [|done].
      case_decide as D0.
      * right. unfold join_resume_acts. destruct (same_stacklet s p frp w) as [same|]; [|done].
        destruct (f_rp frp) eqn:Hrp; try done. destruct (if same then _ else _) eqn:Hsm; [|done].
        exists i, p, ([Read (LHdr p); Rmw (OJoin p) false true] ++ Fence true false ::
          (if decide (f_stk frp = w_stk w) then [] else [Write (LStk (w_stk w)); Read (LStk (f_stk frp))]) ++
          [Write (LFrame p); Write (LAt (OJoin p)); Read (LHdr p)] ++ rethrow_acts p frp ++ map Read (cells p (length (f_cells frp)))), frp.
        split_and!; [done| | | |done|congruence].
        -- rewrite <- ?app_assoc. cbn [app]. rewrite <- ?app_assoc. cbn [app]. rewrite <- ?app_assoc. done.
        -- rewrite codes_app, (codes_skip (Fence _ _)), !codes_app, codes_rethrow, codes_r by done. by case_decide.
        -- destruct (resume_held _ _ _ _ _ _ _ _ _ H) as (w' & Hw & Hpc'); [cbn; rewrite insert_length; by eapply lookup_lt_Some|].
           eapply held_run; [exact Hw|by rewrite Hpc'].
      * left. by apply Hnil.
    + left. by apply Hnil.
    + destruct (s_frames s !! f) as [fr|] eqn:Hf; [|done].
      assert (Hh : held s i f) by (eapply held_run; [done|by rewrite Hpc]). left. intros q Hq. apply codes_in in Hq.
      assert (Hr : exists k, f_rp fr = RRun (Join k)).
      { unfold join_suspend in H. destruct (f_rp fr) as [[]| | | | | | |]; try done. eauto. }
      assert (q = f) as ->.
      { unfold join_suspend_acts in Hq. rewrite codes_app in Hq. case_decide; [|cbn in Hq; set_solver].
        rewrite (codes_skip (Fence _ _)), codes_app, codes_jr in Hq by done. cbn in Hq. set_solver. }
      destruct Hr as (k & Hr). exists i, fr. split_and!; [done|done|done|congruence].
    + left. apply Hnil. by destruct b.
    + left. apply Hnil. rewrite codes_app, codes_pop. by destruct (w_deque w).
  - destruct (stale_inv _ _ _ _ H) as (w & f & fr & Hi & Hpc & Hf & [(k & Hr & Hz & -> & ->)|[(m & st & k & pre & Hr & H')|(p & j & st0 & Hr & Hk & H')]]);
      rewrite Hi, Hpc, Hf; unfold stale_acts; rewrite Hr.
    + left. intros q Hq. apply codes_in in Hq. cbn in Hq. apply elem_of_list_singleton in Hq as ->.
      exists i, fr. split_and!; [done|eapply held_run; [done|by rewrite Hpc]|done|congruence].
    + left. intros q Hq. apply codes_in in Hq. rewrite codes_fork in Hq. apply elem_of_list_singleton in Hq as ->.
      exists i, fr. split_and!; [done|eapply held_run; [done|by rewrite Hpc]|done|congruence].
    + unfold finish in H'. case_decide; [|done]. unfold finish_acts. rewrite Hk in *.
      right. destruct (destroy w f fr s) as [s1|] eqn:Hd; [|done]. destruct (s_frames s1 !! p) as [frp|] eqn:Hp; [|done].
      pose proof (destroy_live _ _ _ _ _ _ _ Hd Hp) as Hp0. rewrite Hp0.
      assert (Hw1 : s_workers s1 = s_workers s) by (unfold destroy in Hd; repeat case_match; try done; by simplify_eq).
      destruct (f_rp frp) as [|?|m st k| | | | | ] eqn:Hrp; try done.
      destruct (call_last false p frp m st) as (pre & Hpre & Hc). rewrite Hpre.
      exists i, p, ([Write (LFrame f); Read (LHdr f)] ++ destroy_acts f fr ++ Read (LHdr p) :: pre), frp.
      split_and!; [done| | | |done|congruence].
      * rewrite <- !app_assoc. done.
      * rewrite !codes_app, codes_destroy. done.
      * assert (Hw : s_workers s' !! i = Some (set_pc (PRun p) w)).
        { unfold call_resume in H'. repeat case_match; try done; simplify_eq; cbn; rewrite Hw1; apply list_lookup_insert;
            by eapply lookup_lt_Some. }
        eapply held_run; [exact Hw|done].
  - left. apply Hnil. destruct (s_workers s !! i); [|done]. apply codes_take.
  - left. by apply Hnil.
  - left. by apply Hnil.
Qed.

(** ** Events in the actions of a step *)

Definition plain (a : action) : Prop := match a with Note _ => False | _ => True end.

Lemma plain_map (F : loc -> action) l : (forall x, plain (F x)) -> Forall plain (map F l).
Proof. intros H. induction l; constructor; auto. Qed.
Lemma plain_rethrow f fr : Forall plain (rethrow_acts f fr).
Proof. unfold rethrow_acts. destruct (f_eflag fr); repeat constructor. Qed.
Lemma plain_last f fr : Forall plain (last_cell_acts f fr).
Proof. unfold last_cell_acts. destruct (length _); repeat constructor. Qed.
Lemma plain_jr f fr : Forall plain (join_resume_acts f fr).
Proof. unfold join_resume_acts. rewrite !Forall_app. split_and!; [apply plain_rethrow|by apply plain_map|repeat constructor]. Qed.
Lemma plain_destroy f fr : Forall plain (destroy_acts f fr).
Proof. by apply plain_map. Qed.
Lemma plain_pop i l : Forall plain (pop_acts i l).
Proof. destruct l as [|? [|]]; repeat constructor. Qed.
Ltac plains0 := repeat first [apply plain_jr | apply plain_destroy | apply plain_rethrow | apply plain_pop | apply plain_last
  | match goal with |- Forall _ (_ ++ _) => apply Forall_app; split | |- Forall _ [] => apply List.Forall_nil
    | |- Forall _ (_ :: _) => apply List.Forall_cons; [exact I|] end | case_decide | case_match].
Lemma plain_call seen f fr m st : Forall plain (call_resume_acts seen f fr m st).
Proof. unfold call_resume_acts. plains0. Qed.
Lemma plain_fork seen f fr m st pre : Forall plain (fork_resume_acts seen f fr m st pre).
Proof. unfold fork_resume_acts. plains0. Qed.

Ltac plains := repeat first [apply plain_jr | apply plain_destroy | apply plain_rethrow | apply plain_pop | apply plain_call
  | apply plain_fork | match goal with |- Forall _ (_ ++ _) => apply Forall_app; split | |- Forall _ [] => apply List.Forall_nil
    | |- Forall _ (_ :: _) => apply List.Forall_cons; [exact I|] end | case_decide | case_match].

Lemma plain_acts l s : Forall plain (acts l s).
Proof.
  destruct l as [i fail|i|i|i v|d t0]; cbn [acts].
  - unfold work_acts. destruct (s_workers s !! i) as [w|]; [|constructor]. destruct (w_pc w) as [|f|f|p|p| |f|b|].
    + destruct (w_batch w); [constructor|]. unfold submitted_acts. plains.
    + plains.
    + destruct (s_frames s !! f) as [fr|]; [|constructor]. destruct (f_rp fr) as [t|m st k pre|m st k|k|d t|e| |]; try (by plains).
      * destruct t; cbn [run_acts]; unfold deliver_acts, take_stack_acts, stash_acts, submit_acts, create_acts, push_acts; plains.
      * unfold capture_acts. plains.
      * unfold finish_acts. plains.
    + plains.
    + unfold final_sub_acts. plains.
    + plains.
    + unfold join_suspend_acts, take_stack_acts. plains.
    + plains.
    + plains.
  - destruct (s_workers s !! i) as [w|]; [|constructor]. destruct (w_pc w); try constructor. destruct (s_frames s !! f) as [fr|]; [|constructor]. unfold stale_acts. destruct (f_rp fr); unfold finish_acts; plains.
  - destruct (s_workers s !! i) as [w|]; [|constructor]. unfold take_acts. constructor; [done|].
    induction (w_inbox w) as [|f l IH]; cbn; [constructor|]. repeat (constructor; [done|]). done.
  - unfold steal_acts. plains.
  - unfold spawn_acts, create_acts, submit_acts. plains.
Qed.

Definition opens (l : label) (s : state) (evs : list event) : Prop :=
  exists e a1 a2 a3 rest,
    filter (fun e => opening e = true) evs = [e] /\
    acts l s = a1 :: a2 :: a3 :: Write (LFrame (s_nextf s)) :: rest /\
    ((exists x, e = EvSpawn (s_nextf s) x /\ actor l s = TX (s_nextf s) /\ codes (acts l s) = []) \/
     (exists p i st x, (e = EvFork p (s_nextf s) st x \/ e = EvCall p (s_nextf s) st x) /\ actor l s = TW i /\
        live s p /\ a1 = Code p /\ codes (acts l s) = [p])).

Lemma open_step l s s' evs : step l s = Next s' evs -> quiet evs \/ opens l s evs.
Proof.
  intros H. destruct l as [i fail|i|i|i v|d t0]; cbn [step] in H.
  - unfold wstep in H. unfold opens. cbn [acts]. unfold work_acts.
    destruct (s_workers s !! i) as [w|] eqn:Hi; [|done].
    destruct (w_pc w) as [|f|f|p|p| |f|b|] eqn:Hpc.
    + left. unfold resume_submitted in H. repeat case_match; try done; by simplify_eq.
    + left. unfold resume_stolen in H. repeat case_match; try done; by simplify_eq.
    + destruct (s_frames s !! f) as [fr|] eqn:Hf; [|done].
      destruct (f_rp fr) as [t|m st k pre|m st k|k|d t|e| |] eqn:Hr; try done.
      * destruct t as [v|e|m st c k|m st c k|k|sk d k|e k|k]; cbn [run_task run_acts] in H |- *.
        -- left. by eapply deliver_quiet.
        -- left. by eapply deliver_quiet.
        -- destruct fail; simplify_eq; [by left|]. right. eexists _, _, _, _, _. split_and!; [done|done|]. right.
           exists f, i, st, c. split_and!; [by left|done|by exists fr|done|done].
        -- destruct fail; simplify_eq; [by left|]. right. eexists _, _, _, _, _. split_and!; [done|done|]. right.
           exists f, i, st, c. split_and!; [by right|done|by exists fr|done|done].
        -- left. destruct (decide (f_steals fr = 0)); [by eapply join_resume_quiet|].
           case_match; [by eapply take_resume_quiet|]. by simplify_eq.
        -- left. repeat case_match; try done; by simplify_eq.
        -- left. by simplify_eq.
        -- left. by simplify_eq.
      * left. by eapply fork_resume_quiet.
      * left. by simplify_eq.
      * left. by eapply capture_quiet.
      * left. by eapply finish_quiet.
      * left. unfold root_destroy in H. destruct (destroy _ _ _ _); [|done]. by eapply to_idle_quiet.
    + left. repeat case_match; try done; by simplify_eq.
    + left. unfold final_sub in H. repeat case_match; try done; simplify_eq; try done;
        first [eapply join_resume_quiet; [exact H|done]|eapply to_idle_quiet; [exact H|done]].
    + left. by eapply to_idle_quiet.
    + left. destruct (s_frames s !! f) as [fr|] eqn:Hf; [|done]. unfold join_suspend in H.
      repeat case_match; try done; simplify_eq; try done. by eapply take_resume_quiet.
    + left. repeat case_match; try done; by simplify_eq.
    + left. unfold self_steal in H. case_match; [by eapply to_idle_quiet|]. repeat case_match; try done; by simplify_eq.
  - left. destruct (stale_inv _ _ _ _ H) as (w & f & fr & Hi & Hpc & Hf & [(k & Hr & Hz & -> & ->)|[(m & st & k & pre & Hr & H')|(p & j & st & Hr & Hk & H')]]).
    + done.
    + by eapply fork_resume_quiet.
    + by eapply finish_quiet.
  - left. unfold take in H. repeat case_match; try done; by simplify_eq.
  - left. unfold steal in H. repeat case_match; try done; by simplify_eq.
  - right. unfold spawn in H. destruct (s_workers s !! d); [|done]. simplify_eq.
    eexists _, _, _, _, _. split_and!; [done|done|]. left. exists t0. done.
Qed.

(** *** Joins *)

Definition no_join (evs : list event) : Prop := forall p cs e, EvJoin p cs e ∉ evs.

Ltac nojoin := intros ? ? ?; rewrite ?elem_of_cons, ?elem_of_nil; naive_solver.

Lemma idle_no_join i w s tr s' evs : to_idle i w s tr = Next s' evs -> no_join tr -> no_join evs.
Proof. intros H. unfold to_idle in H. repeat case_match; try done; by simplify_eq. Qed.

Lemma call_no_join seen i w f fr m st k s tr s' evs : call_resume seen i w f fr m st k s tr = Next s' evs -> no_join tr -> no_join evs.
Proof.
  intros H Q p cs e. specialize (Q p cs e). unfold call_resume in H.
  repeat case_match; try done; simplify_eq; rewrite elem_of_app, ?elem_of_cons, ?elem_of_nil; naive_solver.
Qed.

Definition joins (l : label) (s s' : state) (p : N) : Prop :=
  exists i w' fr' pre, actor l s = TW i /\ s_workers s' !! i = Some w' /\ w_pc w' = PRun p /\
    s_frames s' !! p = Some fr' /\ f_steals fr' = 0 /\ acts l s = pre ++ [Code p].

Lemma jr_last f fr : exists pre, join_resume_acts f fr = pre ++ [Code f].
Proof. unfold join_resume_acts. rewrite app_assoc. eauto. Qed.

Lemma resume_joins i w f fr k s tr s' evs p cs e :
  join_resume i w f fr k s tr = Next s' evs -> (i < length (s_workers s))%nat ->
  no_join tr -> EvJoin p cs e ∈ evs ->
  p = f /\ exists w' fr', s_workers s' !! i = Some w' /\ w_pc w' = PRun f /\ s_frames s' !! f = Some fr' /\ f_steals fr' = 0.
Proof.
  intros H Hi Q He. unfold join_resume in H. case_decide as D0; [|done]. destruct (same_stacklet s f fr w) as [[]|]; try done.
  destruct (unsafe_rethrow fr) as [[r fr']|] eqn:Hu; [|done]. simplify_eq.
  apply elem_of_app in He as [He|He]; [by apply Q in He|]. apply elem_of_list_singleton in He. simplify_eq.
  split; [done|]. exists (set_pc (PRun f) w), (set_rp (RRun (k (f_cells fr) r)) fr'). cbn. split_and!.
  - by apply list_lookup_insert.
  - done.
  - apply lookup_insert.
  - unfold unsafe_rethrow in Hu. destruct D0. repeat case_match; by simplify_eq.
Qed.

Lemma join_step l s s' evs p cs e : step l s = Next s' evs -> EvJoin p cs e ∈ evs -> joins l s s' p.
Proof.
  intros H He. destruct l as [i fail|i|i|i v|d t0]; cbn [step] in H.
  - unfold wstep in H. unfold joins. cbn [acts actor]. unfold work_acts.
    destruct (s_workers s !! i) as [w|] eqn:Hi; [|done].
    assert (Hlen : (i < length (s_workers s))%nat) by (by eapply lookup_lt_Some).
    destruct (w_pc w) as [|f|f|q|q| |f|b|] eqn:Hpc.
    + unfold resume_submitted in H. repeat case_match; try done; simplify_eq; set_solver.
    + unfold resume_stolen in H. repeat case_match; try done; simplify_eq; set_solver.
    + destruct (s_frames s !! f) as [fr|] eqn:Hf; [|done].
      destruct (f_rp fr) as [t|m st k pre|m st k|k|d t|e0| |] eqn:Hr; try done.
      * destruct t as [v|e0|m st c k|m st c k|k|sk d k|e0 k|k]; cbn [run_task run_acts] in H |- *.
        -- unfold deliver in H. repeat case_match; try done; simplify_eq; set_solver.
        -- unfold deliver in H. repeat case_match; try done; simplify_eq; set_solver.
        -- destruct fail; simplify_eq; set_solver.
        -- destruct fail; simplify_eq; set_solver.
        -- destruct (jr_last f fr) as (pre & Hpre). destruct (decide (f_steals fr = 0)).
           ++ destruct (fun B => resume_joins _ _ _ _ _ _ _ _ _ _ _ _ H Hlen B He) as (-> & w' & fr' & ?); [nojoin|].
              exists i, w', fr', ([Code f; Read (LFrame f)] ++ pre). rewrite Hpre. naive_solver.
           ++ destruct (decide (f_steals fr = u16max - f_joins fr)); [|simplify_eq; set_solver].
              unfold take_stack_join_resume in H. rewrite decide_False in H by done. destruct (stk _ _); [|done].
              destruct (fun A B => resume_joins _ _ _ _ _ _ _ _ _ _ _ _ H A B He) as (-> & w' & fr' & ?);
                [cbn; by rewrite insert_length|nojoin|].
              exists i, w', fr', ([Code f; Read (LFrame f)] ++ Load (OJoin f) true :: take_stack_acts (w_stk w) f fr ++ pre).
              rewrite Hpre. naive_solver.
        -- repeat case_match; try done; simplify_eq; set_solver.
        -- simplify_eq; set_solver.
        -- simplify_eq; set_solver.
      * unfold fork_resume in H. repeat case_match; try done; simplify_eq; set_solver.
      * simplify_eq; set_solver.
      * unfold capture in H. repeat case_match; try done; simplify_eq; set_solver.
      * exfalso. unfold finish in H. case_decide; [|done]. destruct (f_kind fr) as [|p0 j st|p0 j st] eqn:Hk.
        -- simplify_eq; set_solver.
        -- destruct (destroy w f fr s) as [s1|]; [|done]. destruct (s_frames s1 !! p0) as [frp|]; [|done].
           destruct (f_rp frp); try done. eapply call_no_join in H; [by apply H in He|]. nojoin.
        -- destruct (destroy w f fr s) as [s1|]; [|done]. simplify_eq; set_solver.
      * exfalso. unfold root_destroy in H. destruct (destroy w f fr s) as [s1|]; [|done].
        eapply idle_no_join in H; [by apply H in He|]. nojoin.
    + repeat case_match; try done; simplify_eq; set_solver.
    + unfold final_sub in H. unfold final_sub_acts. destruct (s_frames s !! q) as [frp|] eqn:Hp; [|done].
      destruct (same_stacklet s q frp w) as [same|]; [|done]. destruct (jr_last q frp) as (pre & Hpre).
      destruct (decide (f_joins frp = 1)).
      * destruct (f_rp frp); try done. destruct (if same then _ else _); [|done].
        destruct (fun A B => resume_joins _ _ _ _ _ _ _ _ _ _ _ _ H A B He) as (-> & w' & fr' & ?);
          [cbn; by rewrite insert_length|nojoin|].
        exists i, w', fr', ([Read (LHdr q); Rmw (OJoin q) false true] ++ Fence true false ::
          (if decide (f_stk frp = w_stk w) then [] else [Write (LStk (w_stk w)); Read (LStk (f_stk frp))]) ++
          [Write (LFrame q); Write (LAt (OJoin q)); Read (LHdr q)] ++ pre).
        rewrite Hpre. rewrite <- !app_assoc. cbn [app]. rewrite <- !app_assoc. naive_solver.
      * exfalso. destruct same; [simplify_eq; set_solver|]. eapply idle_no_join in H; [by apply H in He|]. nojoin.
    + exfalso. eapply idle_no_join in H; [by apply H in He|]. nojoin.
    + destruct (s_frames s !! f) as [fr|] eqn:Hf; [|done]. unfold join_suspend in H. unfold join_suspend_acts.
      destruct (jr_last f fr) as (pre & Hpre). destruct (f_rp fr) as [[]| | | | | | |]; try done.
      destruct (decide (f_steals fr = u16max - f_joins fr)); [|simplify_eq; set_solver].
      unfold take_stack_join_resume in H. case_decide; [done|]. destruct (stk _ _); [|done].
      destruct (fun A B => resume_joins _ _ _ _ _ _ _ _ _ _ _ _ H A B He) as (-> & w' & fr' & ?);
        [cbn; by rewrite insert_length|nojoin|].
      exists i, w', fr', ([Write (LFrame f); Rmw (OJoin f) false true] ++ Fence true false :: take_stack_acts (w_stk w) f fr ++ pre).
      rewrite Hpre. naive_solver.
    + repeat case_match; try done; simplify_eq; set_solver.
    + unfold self_steal in H. case_match; [exfalso; eapply idle_no_join in H; [by apply H in He|]; nojoin|].
      repeat case_match; try done; simplify_eq; set_solver.
  - exfalso. destruct (stale_inv _ _ _ _ H) as (w & f & fr & Hi & Hpc & Hf & [(k & Hr & Hz & -> & ->)|[(m & st & k & pre & Hr & H')|(p0 & j & st & Hr & Hk & H')]]).
    + set_solver.
    + unfold fork_resume in H'. repeat case_match; try done; simplify_eq; set_solver.
    + unfold finish in H'. case_decide; [|done]. rewrite Hk in H'.
      destruct (destroy w f fr s) as [s1|]; [|done]. destruct (s_frames s1 !! p0) as [frp|]; [|done].
      destruct (f_rp frp); try done. eapply call_no_join in H'; [by apply H' in He|]. nojoin.
  - unfold take in H. repeat case_match; try done; simplify_eq; set_solver.
  - unfold steal in H. repeat case_match; try done; simplify_eq; set_solver.
  - unfold spawn in H. repeat case_match; try done; simplify_eq; set_solver.
Qed.
