(** Lemmas about sessions with mechanisms of other crates. *)
From Coq Require Import Lia.
From Verif Require Import Bytes Types World MonadFacts Simple OAuth CallbackSpec WorldFacts Frame Session Spec_Session
  Proof_Session Custom Spec_Custom.
Open Scope m_scope.

Lemma keeps_catch {L A} W (m : M L A) : keeps W m -> keeps W (catch m).
Proof.
  intros H l w. specialize (H l w). unfold catch. destruct (m l w) as [[[a|x|] l1] w1]; exact H.
Qed.
Lemma write1_wrote data w : exists p, wrote p w (snd (write1 data w)).
Proof.
  unfold write1, wrote. destruct (w_script w) as [|[n|n|] s] eqn:E; simpl.
  - exists data. repeat split; auto. apply script_left_refl.
  - exists (firstn (Nat.min n (length data)) data). repeat split; auto.
    exists [WAccept n]. reflexivity.
  - exists []. rewrite app_nil_r. repeat split; auto. exists [WFail n].
    reflexivity.
  - exists []. rewrite app_nil_r. repeat split; auto. exists [WInterrupt].
    reflexivity.
Qed.
Lemma keeps_write_once {L} W data : writes W -> keeps W (@write_once L data).
Proof.
  intros H l w. unfold write_once. destruct (write1_wrote data w) as [p Hp].
  destruct (write1 data w) as [r w1]. eapply H. exact Hp.
Qed.
Lemma keeps_draw {L} W e : draws_ok W -> keeps W (@draw L e).
Proof. intros H l w. apply H. Qed.

(** What every operation preserves, code made of them preserves. *)
Lemma keeps_exec {T A} W (F : frame W) e (p : prog T A) :
  writes W -> draws_ok W -> (forall n, admits W (EvChan n)) ->
  (forall L G q c (f : pval q -> M L G), (forall v, keeps W (f v)) ->
     keeps W (maybe_need_with e q c f)) ->
  (forall L q c v, keeps W (@action L e q c v)) ->
  (forall L c, keeps W (@validate L e c)) ->
  keeps W (exec e p).
Proof.
  intros Hw Hd Hn Hm Ha Hv.
  induction p as [A r|A k IH|A t k IH|A d k IH|A d k IH|A k IH|A G q c f IHf k IH
                 |A G n c f IHf k IH|A q c v k IH|A c k IH]; cbn [exec].
  - apply keeps_of_res; assumption.
  - apply keeps_bind; [assumption|apply keeps_getl; assumption|assumption].
  - apply keeps_bind; [assumption|apply keeps_setl; assumption|intros; assumption].
  - apply keeps_bind; [assumption|apply keeps_write_once; assumption|intros; apply IH].
  - apply keeps_bind; [assumption|apply keeps_catch, keeps_write_all; assumption|intros; apply IH].
  - apply keeps_bind; [assumption|apply keeps_draw; assumption|intros; apply IH].
  - apply keeps_bind; [assumption|apply keeps_catch, Hm; exact IHf|intros; apply IH].
  - apply keeps_bind; [assumption| |intros; apply IH]. apply keeps_catch.
    unfold maybe_need_cb_data. apply keeps_bind; [assumption|apply keeps_log; apply Hn|].
    intros _. destruct (e_chan e n).
    + apply keeps_bind; [assumption|apply IHf|]. intros. apply keeps_ret; assumption.
    + apply Hm. exact IHf.
  - apply keeps_bind; [assumption|apply keeps_catch, Ha|intros; apply IH].
  - apply keeps_bind; [assumption|apply keeps_catch, Hv|intros; apply IH].
Qed.

(** * Validation values *)

Lemma exec_vfr {T A} e (p : prog T A) : keeps (vfr e) (exec e p).
Proof.
  pose proof (vfr_frame e) as F. apply keeps_exec; try assumption; try vfr_done.
  - intros. apply keeps_maybe_need_with; [exact F|apply vfr_asks|assumption].
  - intros. apply keeps_action; [exact F| |]; vfr_done.
  - intros. apply vfr_validate.
Qed.

Lemma cstep_world {T} e (m : custom T) s i sc r out s' W :
  keeps W (exec e (m i)) -> cstep e m s i sc = (r, out, s') ->
  W (mk_world [] sc (cs_trace s) (cs_rng s) (cs_val s))
    (mk_world out (w_script (snd (exec e (m i) (cs_state s)
       (mk_world [] sc (cs_trace s) (cs_rng s) (cs_val s)))))
       (cs_trace s') (cs_rng s') (cs_val s')).
Proof.
  intros K H. unfold cstep in H.
  specialize (K (cs_state s) (mk_world [] sc (cs_trace s) (cs_rng s) (cs_val s))).
  destruct (exec _ _ _ _) as [[r0 t0] w0]. injection H as <- <- <-. destruct w0. exact K.
Qed.

Lemma csteps_vfr {T} e (m : custom T) s s' : csteps e m s s' ->
  exists evs, cs_trace s' = cs_trace s ++ evs /\
    cs_val s' = val_after e (cs_trace s) evs (cs_val s).
Proof.
  intros H. induction H as [s|s s1 s2 i sc r o H _ IH].
  { exists []. rewrite app_nil_r. split; reflexivity. }
  apply (cstep_world _ _ _ _ _ _ _ _ (vfr e)) in H; [|apply exec_vfr].
  destruct H as [e1 [T1 V1]]; destruct IH as [e2 [T2 V2]]. simpl in T1, V1.
  exists (e1 ++ e2). rewrite T2, T1, app_assoc; split; [reflexivity|].
  rewrite V2, V1, T1, val_after_app. reflexivity.
Qed.

Lemma custom_first {T} e (m : custom T) s s' o : cs_val s = None -> csteps e m s s' ->
  exists evs, cs_trace s' = cs_trace s ++ evs /\
    (first_produced e (cs_trace s) evs o <-> fst (cvalidation s') = o).
Proof.
  intros Hv Hc. destruct (csteps_vfr _ _ _ _ Hc) as [evs [X V]]. exists evs. split; [exact X|].
  rewrite first_produced_val. simpl. rewrite V, Hv. split; congruence.
Qed.
Lemma custom_kept {T} e (m : custom T) s s' x : cs_val s = Some x -> csteps e m s s' ->
  fst (cvalidation s') = Some x.
Proof.
  intros Hv Hc. destruct (csteps_vfr _ _ _ _ Hc) as [evs [X V]]. simpl. rewrite V, Hv.
  apply val_after_some.
Qed.
Lemma custom_taken {T} e (m : custom T) s s' evs : csteps e m (snd (cvalidation s)) s' ->
  cs_trace s' = cs_trace s ++ evs -> validations evs = [] -> fst (cvalidation s') = None.
Proof.
  intros Hc Hn Hv. destruct (csteps_vfr _ _ _ _ Hc) as [evs' [X V]].
  simpl in *. rewrite X in Hn. apply app_inv_head in Hn. subst evs'.
  rewrite V. apply val_after_calm. exact Hv.
Qed.

(** * One answer for each request *)

Lemma requests_app q a b : requests q (a ++ b) = requests q a + requests q b.
Proof.
  induction a as [|ev a IH]; [reflexivity|]. destruct ev; simpl; rewrite ?IH; lia.
Qed.

(** At every moment at most [n] more answers than requests. *)
Definition bal (q : prop) (n : nat) (w w' : world) : Prop :=
  exists evs, w_trace w' = w_trace w ++ evs /\
    forall a b, evs = a ++ b -> length (answers q a) <= requests q a + n.

Lemma bal_refl q n w : bal q n w w.
Proof.
  exists []. rewrite app_nil_r. split; [reflexivity|]. intros a b H. symmetry in H.
  apply app_eq_nil in H. destruct H as [-> _]. simpl. lia.
Qed.
Lemma prefix_app {A} (x y a b : list A) : x ++ y = a ++ b ->
  (exists z, x = a ++ z) \/ (exists z, a = x ++ z /\ y = z ++ b).
Proof.
  revert a; induction x as [|h x IH]; intros a H; simpl in H.
  - right. exists a. split; [reflexivity|exact H].
  - destruct a as [|h' a]; simpl in H.
    + left. exists (h :: x). reflexivity.
    + injection H as <- H. destruct (IH a H) as [[z ->]|[z [-> ->]]].
      * left. exists z. reflexivity.
      * right. exists z. split; reflexivity.
Qed.
Lemma bal_comp q n k a b c : bal q n a b -> bal q k b c -> bal q (n + k) a c.
Proof.
  intros [e1 [T1 B1]] [e2 [T2 B2]]. exists (e1 ++ e2).
  rewrite T2, T1, app_assoc. split; [reflexivity|]. intros x y H.
  apply prefix_app in H. destruct H as [[z Hz]|[z [-> Hz]]].
  - specialize (B1 _ _ Hz). lia.
  - rewrite answers_app, app_length, requests_app. specialize (B2 _ _ Hz).
    specialize (B1 e1 [] (eq_sym (app_nil_r e1))). lia.
Qed.
Lemma bal_frame q : frame (bal q 0).
Proof.
  split; [intros; apply bal_refl|]. intros a b c H1 H2. exact (bal_comp q 0 0 a b c H1 H2).
Qed.
Lemma bal_event q n ev w : length (answers q [ev]) <= requests q [ev] + n ->
  bal q n w (add_events [ev] w).
Proof.
  intros H. exists [ev]. split; [reflexivity|]. intros a b E.
  destruct a as [|h a]; [simpl; lia|]. injection E as <- E. symmetry in E.
  apply app_eq_nil in E. destruct E as [-> _]. exact H.
Qed.
Lemma bal_quiet q ev : answers q [ev] = [] -> admits (bal q 0) ev.
Proof. intros H w. apply bal_event. rewrite H. simpl. lia. Qed.
Lemma bal_writes q : writes (bal q 0).
Proof.
  intros p w w' [_ [Ht _]]. pose proof (bal_refl q 0 w) as [evs [X B]].
  exists evs. rewrite Ht. split; assumption.
Qed.
Lemma bal_draws q : draws_ok (bal q 0).
Proof. intros w. exact (bal_refl q 0 w). Qed.

(** How many answers may still be given. *)
Definition left_over {G} (q p : prop) (st : closure_cr G) : nat :=
  match st with CrOpen => if prop_eq_dec p q then 1 else 0 | _ => 0 end.

Lemma bal_cr {L G} q p (f : pval p -> M L G) st v l w :
  (forall v, keeps (bal q 0) (f v)) ->
  match cr_satisfy p f st v l w with
  | (_, st', _, w') => bal q (left_over q p st) w w' /\ left_over q p st' = 0
  end.
Proof.
  intros Hf. unfold cr_satisfy. destruct st; try (split; [apply bal_refl|reflexivity]).
  unfold bind, log. rewrite add_event_events.
  specialize (Hf v l (add_events [EvAnswer p v] w)).
  assert (H : bal q (left_over q p (@CrOpen G)) w (add_events [EvAnswer p v] w)).
  { apply bal_event. cbn. destruct (prop_eq_dec p q) as [->|N].
    - rewrite castp_refl. simpl. lia.
    - rewrite castp_neq by assumption. simpl. lia. }
  destruct (f v l (add_events [EvAnswer p v] w)) as [[[g|x|] l1] w1];
    (split; [|reflexivity]); rewrite <- (Nat.add_0_r (left_over q p CrOpen));
    eapply bal_comp; eassumption.
Qed.
Lemma bal_run {L G} q p (f : pval p -> M L G) cb :
  (forall v, keeps (bal q 0) (f v)) -> forall st l w,
  match run_satisfy p f cb st l w with (_, _, _, w') => bal q (left_over q p st) w w' end.
Proof.
  intros Hf. induction cb as [r|p0 v k IH|p0 c k IH|p0 k IH|p0 k IH]; intros st l w;
    cbn [run_satisfy]; try apply IH.
  - apply bal_refl.
  - destruct (castp v) as [v'|]; [|apply IH].
    pose proof (bal_cr q p f st v' l w Hf) as H.
    destruct (cr_satisfy p f st v' l w) as [[[[u|x|] st1] l1] w1]; destruct H as [H Z].
    + specialize (IH (Some ECbEarlyReturn) st1 l1 w1).
      destruct (run_satisfy _ _ _ _ _ _) as [[[r2 st2] l2] w2]. rewrite Z in IH.
      rewrite <- (Nat.add_0_r (left_over q p st)). eapply bal_comp; eassumption.
    + specialize (IH (Some x) st1 l1 w1).
      destruct (run_satisfy _ _ _ _ _ _) as [[[r2 st2] l2] w2]. rewrite Z in IH.
      rewrite <- (Nat.add_0_r (left_over q p st)). eapply bal_comp; eassumption.
    + exact H.
  - destruct (prop_eq_dec p0 p) as [E|]; [|apply IH]. subst p0.
    rewrite add_event_events. set (w1 := add_events [EvClosure p] w).
    assert (H1 : bal q 0 w w1) by (apply bal_event; simpl; lia).
    assert (Hgo : forall x, match run_satisfy p f (k x) st l w1 with
                            | (_, _, _, w') => bal q (left_over q p st) w w' end).
    { intros x. specialize (IH x st l w1). destruct (run_satisfy _ _ _ _ _ _) as [[[r2 st2] l2] w2].
      exact (bal_comp q 0 _ _ _ _ H1 IH). }
    destruct c as [x|v]; [apply Hgo|]. destruct (castp v) as [v'|]; [|apply Hgo].
    pose proof (bal_cr q p f st v' l w1 Hf) as H.
    destruct (cr_satisfy p f st v' l w1) as [[[[u|x|] st1] l1] w2]; destruct H as [H Z].
    + specialize (IH (Some ECbEarlyReturn) st1 l1 w2).
      destruct (run_satisfy _ _ _ _ _ _) as [[[r2 st2] l2] w3]. rewrite Z in IH.
      pose proof (bal_comp _ _ _ _ _ _ H1 (bal_comp _ _ _ _ _ _ H IH)) as R.
      rewrite Nat.add_0_r in R. exact R.
    + specialize (IH (Some x) st1 l1 w2).
      destruct (run_satisfy _ _ _ _ _ _) as [[[r2 st2] l2] w3]. rewrite Z in IH.
      pose proof (bal_comp _ _ _ _ _ _ H1 (bal_comp _ _ _ _ _ _ H IH)) as R.
      rewrite Nat.add_0_r in R. exact R.
    + exact (bal_comp _ _ _ _ _ _ H1 H).
Qed.
Lemma bal_need {L G} q e p c (f : pval p -> M L G) :
  (forall v, keeps (bal q 0) (f v)) -> keeps (bal q 0) (maybe_need_with e p c f).
Proof.
  intros Hf l w. unfold maybe_need_with. rewrite add_event_events.
  pose proof (bal_run q p f (e_cb e (w_trace w) (e_sd e) c (RSatisfy p)) Hf CrOpen l
    (add_events [EvRequest p c] w)) as H.
  destruct (run_satisfy _ _ _ _ _ _) as [[[r st] l1] w1].
  assert (R : bal q 0 w w1).
  { destruct H as [evs [X B]]. exists (EvRequest p c :: evs). split.
    - rewrite X. simpl. rewrite <- app_assoc. reflexivity.
    - intros a b E. destruct a as [|h a]; [simpl; lia|]. injection E as <- E.
      specialize (B a b E). cbn in *. destruct (prop_eq_dec p q); lia. }
  destruct r as [r|x|]; auto. destruct (mask_early r) as [[]|]; auto.
Qed.
Lemma exec_bal {T A} q e (p : prog T A) : keeps (bal q 0) (exec e p).
Proof.
  pose proof (bal_frame q) as F. apply keeps_exec; try assumption.
  - apply bal_writes.
  - apply bal_draws.
  - intros n. apply bal_quiet. reflexivity.
  - intros. apply bal_need. assumption.
  - intros. apply keeps_action; [exact F| |]; apply bal_quiet; reflexivity.
  - intros L c l w. unfold validate. destruct (run_validate _ _ _) as [[x|] slot];
      exact (bal_event q 0 (EvValidate c) w (Nat.le_0_l _)).
Qed.
Lemma custom_answers {T} e (m : custom T) s s' : csteps e m s s' ->
  exists evs, cs_trace s' = cs_trace s ++ evs /\
    forall q a b, evs = a ++ b -> length (answers q a) <= requests q a.
Proof.
  intros H.
  assert (K : forall q, bal q 0 (mk_world [] [] (cs_trace s) 0 None)
                                (mk_world [] [] (cs_trace s') 0 None)).
  { intros q. induction H as [s|s s1 s2 i sc r o H _ IH]; [apply bal_refl|].
    eapply (fr_trans _ (bal_frame q)); [|exact IH].
    apply (cstep_world _ _ _ _ _ _ _ _ (bal q 0)) in H; [|apply exec_bal]. exact H. }
  destruct (K PAuthzId) as [evs [X _]]. exists evs. split; [exact X|]. intros q a b E.
  destruct (K q) as [evs' [X' B]]. simpl in X, X'. rewrite X in X'. apply app_inv_head in X'.
  subst evs'. specialize (B a b E). lia.
Qed.

(** * Panics *)

Lemma write_all_calm {L} data (l : L) w : fst (fst (write_all data l w)) <> Panic.
Proof.
  destruct (write_all_spec data l w) as [p [q [w' [_ [_ [[-> _]|[x ->]]]]]]]; discriminate.
Qed.
Lemma cr_calm {L G} q (f : pval q -> M L G) st v l w :
  (forall v l w, fst (fst (f v l w)) <> Panic) ->
  fst (fst (fst (cr_satisfy q f st v l w))) <> Panic.
Proof.
  intros Hf. unfold cr_satisfy. destruct st; try discriminate. unfold bind, log.
  specialize (Hf v l (add_event (EvAnswer q v) w)).
  destruct (f v l (add_event (EvAnswer q v) w)) as [[[g|x|] l1] w1]; simpl in *; congruence.
Qed.
Lemma run_calm {L G} q (f : pval q -> M L G) cb :
  (forall v l w, fst (fst (f v l w)) <> Panic) -> forall st l w,
  fst (fst (fst (run_satisfy q f cb st l w))) <> Panic.
Proof.
  intros Hf. induction cb as [r|p0 v k IH|p0 c k IH|p0 k IH|p0 k IH]; intros st l w;
    cbn [run_satisfy]; try apply IH.
  - discriminate.
  - destruct (castp v) as [v'|]; [|apply IH].
    pose proof (cr_calm q f st v' l w Hf) as H.
    destruct (cr_satisfy q f st v' l w) as [[[[u|x|] st1] l1] w1]; try apply IH.
    exfalso; apply H; reflexivity.
  - destruct (prop_eq_dec p0 q); [|apply IH]. cbv zeta.
    destruct c as [x|v]; [apply IH|]. destruct (castp v) as [v'|]; [|apply IH].
    pose proof (cr_calm q f st v' l (add_event (EvClosure p0) w) Hf) as H.
    destruct (cr_satisfy _ _ _ _ _ _) as [[[[u|x|] st1] l1] w1]; try apply IH.
    exfalso; apply H; reflexivity.
Qed.
Lemma need_calm {L G} e q c (f : pval q -> M L G) l w :
  (forall v l w, fst (fst (f v l w)) <> Panic) ->
  fst (fst (maybe_need_with e q c f l w)) <> Panic.
Proof.
  intros Hf. unfold maybe_need_with.
  pose proof (run_calm q f (e_cb e (w_trace w) (e_sd e) c (RSatisfy q)) Hf CrOpen l
    (add_event (EvRequest q c) w)) as H.
  destruct (run_satisfy _ _ _ _ _ _) as [[[[r|x|] st] l1] w1]; try discriminate.
  - destruct (mask_early r) as [[]|]; discriminate.
  - exfalso; apply H; reflexivity.
Qed.
Lemma bind_calm {L A B} (m : M L A) (f : A -> M L B) l w :
  fst (fst (m l w)) <> Panic -> (forall a l w, fst (fst (f a l w)) <> Panic) ->
  fst (fst (bind m f l w)) <> Panic.
Proof.
  intros Hm Hf. unfold bind. destruct (m l w) as [[[a|x|] l1] w1]; try discriminate;
    [apply Hf|exfalso; apply Hm; reflexivity].
Qed.
Lemma catch_calm {L A} (m : M L A) l w :
  fst (fst (m l w)) <> Panic -> fst (fst (catch m l w)) <> Panic.
Proof.
  unfold catch. destruct (m l w) as [[[a|x|] l1] w1]; try discriminate.
  intros H; exfalso; apply H; reflexivity.
Qed.
Lemma action_calm {L} e q c v (l : L) w : fst (fst (action e q c v l w)) <> Panic.
Proof.
  unfold action. destruct (run_action _ _ _ _) as [[r slot] tr]. cbv zeta.
  destruct (mask_early r); [discriminate|]. destruct slot; discriminate.
Qed.
Lemma validate_calm {L} e c (l : L) w : fst (fst (validate e c l w)) <> Panic.
Proof.
  unfold validate. destruct (run_validate _ _ _) as [[x|] slot]; discriminate.
Qed.
Lemma exec_calm {T A} e (p : prog T A) : panic_free p ->
  forall l w, fst (fst (exec e p l w)) <> Panic.
Proof.
  induction p as [A r|A k IH|A t k IH|A d k IH|A d k IH|A k IH|A G q c f IHf k IH
                 |A G n c f IHf k IH|A q c v k IH|A c k IH]; cbn [exec panic_free]; intros H l w.
  - exact H.
  - apply bind_calm; [discriminate|]. auto.
  - apply bind_calm; [discriminate|]. auto.
  - apply bind_calm; [|auto]. unfold write_once. destruct (write1 d w); discriminate.
  - apply bind_calm; [|auto]. apply catch_calm, write_all_calm.
  - apply bind_calm; [discriminate|]. auto.
  - destruct H as [Hf Hk]. apply bind_calm; [|auto]. apply catch_calm, need_calm. auto.
  - destruct H as [Hf Hk]. apply bind_calm; [|auto]. apply catch_calm.
    unfold maybe_need_cb_data. apply bind_calm; [discriminate|]. intros _ l1 w1.
    destruct (e_chan e n).
    + apply bind_calm; [auto|]. discriminate.
    + apply need_calm. auto.
  - apply bind_calm; [|auto]. apply catch_calm, action_calm.
  - apply bind_calm; [|auto]. apply catch_calm, validate_calm.
Qed.
Lemma custom_calm {T} e (m : custom T) s input script :
  panic_free (m input) -> fst (fst (cstep e m s input script)) <> Panic.
Proof.
  intros H. unfold cstep. pose proof (exec_calm e (m input) H (cs_state s)
    (mk_world [] script (cs_trace s) (cs_rng s) (cs_val s))) as K.
  destruct (exec _ _ _ _) as [[r t] w]. exact K.
Qed.

(** * The internal error of answered requests *)

Local Notation early := ECbEarlyReturn.

Lemma write_all_fuel_early n data w : fst (write_all_fuel n data w) <> Err early.
Proof.
  revert data w; induction n as [|n IH]; intros [|b data] w; try discriminate; cbn [write_all_fuel].
  destruct (write1 (b :: data) w) as [[x|[[|k]|]] w1]; try discriminate; apply IH.
Qed.
Lemma write_all_early {L} data (l : L) w : fst (fst (write_all data l w)) <> Err early.
Proof.
  unfold write_all. pose proof (write_all_fuel_early (S (length (w_script w))) data w) as H.
  destruct (write_all_fuel _ _ _) as [r w1]. exact H.
Qed.
Lemma mask_early_never r : mask_early r <> Some early.
Proof. destruct r as [[]|]; discriminate. Qed.
Lemma run_satisfy_no_err {L G} q (f : pval q -> M L G) cb : forall st l w x,
  fst (fst (fst (run_satisfy q f cb st l w))) <> Err x.
Proof.
  induction cb as [r|p0 v k IH|p0 c k IH|p0 k IH|p0 k IH]; intros st l w y;
    cbn [run_satisfy]; try apply IH.
  - discriminate.
  - destruct (castp v) as [v'|]; [|apply IH].
    destruct (cr_satisfy q f st v' l w) as [[[[u|x|] st1] l1] w1]; try apply IH. discriminate.
  - destruct (prop_eq_dec p0 q); [|apply IH]. cbv zeta.
    destruct c as [x|v]; [apply IH|]. destruct (castp v) as [v'|]; [|apply IH].
    destruct (cr_satisfy _ _ _ _ _ _) as [[[[u|x|] st1] l1] w1]; try apply IH. discriminate.
Qed.
Lemma need_early {L G} e q c (f : pval q -> M L G) l w :
  fst (fst (maybe_need_with e q c f l w)) <> Err early.
Proof.
  unfold maybe_need_with.
  pose proof (run_satisfy_no_err q f (e_cb e (w_trace w) (e_sd e) c (RSatisfy q)) CrOpen l
    (add_event (EvRequest q c) w) early) as H.
  destruct (run_satisfy _ _ _ _ _ _) as [[[[r|x|] st] l1] w1]; try discriminate.
  - pose proof (mask_early_never r) as K. destruct (mask_early r) as [[]|]; simpl; congruence.
  - simpl in *. congruence.
Qed.
Lemma action_early {L} e q c v (l : L) w : fst (fst (action e q c v l w)) <> Err early.
Proof.
  unfold action. destruct (run_action _ _ _ _) as [[r slot] tr]. cbv zeta.
  pose proof (mask_early_never r) as K.
  destruct (mask_early r); [simpl; congruence|]. destruct slot; discriminate.
Qed.
Lemma validate_early {L} e c (l : L) w : fst (fst (validate e c l w)) <> Err early.
Proof.
  unfold validate. destruct (run_validate _ _ _) as [[x|] slot]; discriminate.
Qed.
Lemma bind_early {L A B} (m : M L A) (f : A -> M L B) l w :
  fst (fst (m l w)) <> Err early -> (forall a l w, fst (fst (f a l w)) <> Err early) ->
  fst (fst (bind m f l w)) <> Err early.
Proof.
  intros Hm Hf. unfold bind. destruct (m l w) as [[[a|x|] l1] w1]; try discriminate;
    [apply Hf|]. simpl in *. congruence.
Qed.
Lemma caught_early {L A B} (m : M L A) (f : serr + A -> M L B) l w :
  fst (fst (m l w)) <> Err early ->
  (forall r l w, r <> inl early -> fst (fst (f r l w)) <> Err early) ->
  fst (fst (bind (catch m) f l w)) <> Err early.
Proof.
  intros Hm Hf. unfold bind, catch. destruct (m l w) as [[[a|x|] l1] w1]; try discriminate.
  - apply Hf. discriminate.
  - apply Hf. simpl in Hm. congruence.
Qed.
Lemma failed_early {A} (r : serr + A) : r <> inl early -> failed r <> Some early.
Proof. destruct r; simpl; congruence. Qed.
Lemma exec_early {T A} e (p : prog T A) : passes_on early p ->
  forall l w, fst (fst (exec e p l w)) <> Err early.
Proof.
  induction p as [A r|A k IH|A t k IH|A d k IH|A d k IH|A k IH|A G q c f IHf k IH
                 |A G n c f IHf k IH|A q c v k IH|A c k IH]; cbn [exec passes_on]; intros H l w.
  - exact H.
  - apply bind_early; [discriminate|]. auto.
  - apply bind_early; [discriminate|]. auto.
  - apply bind_early; [|auto]. unfold write_once. destruct (write1 d w); discriminate.
  - apply caught_early; [apply write_all_early|]. intros r l1 w1 Hr.
    apply IH, H, failed_early, Hr.
  - apply bind_early; [discriminate|]. auto.
  - destruct H as [Hf Hk]. apply caught_early; [apply need_early|]. auto.
  - destruct H as [Hf Hk]. apply caught_early; [|auto].
    unfold maybe_need_cb_data. apply bind_early; [discriminate|]. intros _ l1 w1.
    destruct (e_chan e n).
    + apply bind_early; [auto|]. discriminate.
    + apply need_early.
  - apply caught_early; [apply action_early|]. intros r l1 w1 Hr.
    apply IH, H, failed_early, Hr.
  - apply caught_early; [apply validate_early|]. intros r l1 w1 Hr.
    apply IH, H, failed_early, Hr.
Qed.
Lemma custom_early {T} e (m : custom T) s input script :
  passes_on early (m input) -> fst (fst (cstep e m s input script)) <> Err early.
Proof.
  intros H. unfold cstep. pose proof (exec_early e (m input) H (cs_state s)
    (mk_world [] script (cs_trace s) (cs_rng s) (cs_val s))) as K.
  destruct (exec _ _ _ _) as [[r t] w]. exact K.
Qed.

(** * Closures that do the same *)

Lemma run_satisfy_same {L G} q (f g : pval q -> M L G) cb :
  (forall v l w, f v l w = g v l w) -> forall st l w,
  run_satisfy q f cb st l w = run_satisfy q g cb st l w.
Proof.
  intros H.
  assert (C : forall st v l w, cr_satisfy q f st v l w = cr_satisfy q g st v l w).
  { intros st v l w. unfold cr_satisfy, bind, log. destruct st; try reflexivity.
    rewrite H. reflexivity. }
  induction cb as [r|p v k IH|p c k IH|p k IH|p k IH]; intros st l w; cbn [run_satisfy];
    try apply IH; try reflexivity.
  - destruct (castp v) as [v'|]; [|apply IH]. rewrite C.
    destruct (cr_satisfy q g st v' l w) as [[[[u|x|] st1] l1] w1]; try apply IH; reflexivity.
  - destruct (prop_eq_dec p q); [|apply IH]. cbv zeta. destruct c as [x|v]; [apply IH|].
    destruct (castp v) as [v'|]; [|apply IH]. rewrite C.
    destruct (cr_satisfy _ _ _ _ _ _) as [[[[u|x|] st1] l1] w1]; try apply IH; reflexivity.
Qed.
Lemma need_same {L G} e q c (f g : pval q -> M L G) l w :
  (forall v l w, f v l w = g v l w) -> maybe_need_with e q c f l w = maybe_need_with e q c g l w.
Proof.
  intros H. unfold maybe_need_with. cbv zeta.
  rewrite (run_satisfy_same q f g _ H). reflexivity.
Qed.

(** * The built-in mechanisms as such code *)

Fixpoint gbind {T A B} (p : prog T A) : (A -> prog T B) -> prog T B :=
  match p in prog _ A return (A -> prog T B) -> prog T B with
  | GDone r => fun g => match r with Ok a => g a | Err x => GDone (Err x) | Panic => GDone Panic end
  | GGet k => fun g => GGet (fun t => gbind (k t) g)
  | GSet t k => fun g => GSet t (gbind k g)
  | GWrite data k => fun g => GWrite data (fun x => gbind (k x) g)
  | GWriteAll data k => fun g => GWriteAll data (fun x => gbind (k x) g)
  | GRandom k => fun g => GRandom (fun x => gbind (k x) g)
  | GNeed q c f k => fun g => GNeed q c f (fun x => gbind (k x) g)
  | GChan n c f k => fun g => GChan n c f (fun x => gbind (k x) g)
  | GAction q c v k => fun g => GAction q c v (fun x => gbind (k x) g)
  | GValidate c k => fun g => GValidate c (fun x => gbind (k x) g)
  end.

Lemma bind_under {L A B C} (m : M L A) (f : A -> M L B) (g : B -> M L C) (h : A -> M L C) l w :
  (forall a l w, h a l w = bind (f a) g l w) -> bind m h l w = bind (bind m f) g l w.
Proof.
  intros H. unfold bind at 1 2 3. destruct (m l w) as [[[a|x|] l1] w1]; [apply H|reflexivity..].
Qed.
Lemma exec_gbind {T A} e (p : prog T A) : forall B (g : A -> prog T B) l w,
  exec e (gbind p g) l w = bind (exec e p) (fun a => exec e (g a)) l w.
Proof.
  induction p; intros B g l w; cbn [gbind exec];
    try (apply bind_under; intros; match goal with IH : _ |- _ => apply IH end).
  destruct r; reflexivity.
Qed.

(** The code for a computation. *)
Definition coded {T A} (e : env) (m : M T A) : Type := {p : prog T A | forall l w, exec e p l w = m l w}.

Section coded.
Context {T : Type} (e : env).
Lemma coded_res {A} (r : res serr A) : @coded T A e (of_res r).
Proof. exists (GDone r). reflexivity. Defined.
Lemma coded_ret {A} (a : A) : @coded T A e (ret a).
Proof. exists (GDone (Ok a)). reflexivity. Defined.
Lemma coded_fail {A} x : @coded T A e (fail x).
Proof. exists (GDone (Err x)). reflexivity. Defined.
Lemma coded_getl : @coded T T e getl.
Proof. exists (GGet (fun t => GDone (Ok t))). reflexivity. Defined.
Lemma coded_setl t : @coded T unit e (setl t).
Proof. exists (GSet t (GDone (Ok tt))). reflexivity. Defined.
Lemma coded_bind {A B} (m : M T A) (f : A -> M T B) :
  coded e m -> (forall a, coded e (f a)) -> coded e (bind m f).
Proof.
  intros [p H] F. exists (gbind p (fun a => proj1_sig (F a))). intros l w. rewrite exec_gbind. unfold bind.
  rewrite H. destruct (m l w) as [[[a|x|] l1] w1]; [|reflexivity..]. exact (proj2_sig (F a) l1 w1).
Defined.
Definition of_failed (x : option serr) : res serr unit := match x with None => Ok tt | Some x => Err x end.
Lemma coded_write_all data : @coded T unit e (write_all data).
Proof.
  exists (GWriteAll data (fun x => GDone (of_failed x))). intros l w. cbn [exec]. unfold bind, catch.
  destruct (write_all data l w) as [[[[]|x|] l1] w1]; reflexivity.
Defined.
Lemma coded_validate c : @coded T unit e (validate e c).
Proof.
  exists (GValidate c (fun x => GDone (of_failed x))). intros l w. cbn [exec]. unfold bind, catch.
  destruct (validate e c l w) as [[[[]|x|] l1] w1]; reflexivity.
Defined.
Lemma coded_action q c v : @coded T unit e (action e q c v).
Proof.
  exists (GAction q c v (fun x => GDone (of_failed x))). intros l w. cbn [exec]. unfold bind, catch.
  destruct (action e q c v l w) as [[[[]|x|] l1] w1]; reflexivity.
Defined.
Lemma coded_maybe {G} q c (f : pval q -> M T G) :
  (forall v, coded e (f v)) -> coded e (maybe_need_with e q c f).
Proof.
  intros F. exists (GNeed q c (fun v => proj1_sig (F v)) (fun x => GDone (match x with inl y => Err y | inr g => Ok g end))).
  intros l w. cbn [exec]. unfold bind, catch. rewrite (need_same e q c _ f) by (intros v; exact (proj2_sig (F v))).
  destruct (maybe_need_with e q c f l w) as [[[a|x|] l1] w1]; reflexivity.
Defined.
Lemma coded_need {G} q c (f : pval q -> M T G) : (forall v, coded e (f v)) -> coded e (need_with e q c f).
Proof.
  intros F. apply coded_bind; [apply coded_maybe; exact F|]. intros [g|]; [apply coded_ret|apply coded_fail].
Defined.
Lemma coded_json x : @coded T unit e (write_json e x).
Proof.
  exists (GWriteAll (e_json_to e x) (fun r => GDone (match r with None => Ok tt | Some _ => Err (EMech MOAuthBearerSerde) end))).
  intros l w. cbn [exec]. unfold bind, catch, write_json.
  destruct (write_all _ l w) as [[[[]|y|] l1] w1]; reflexivity.
Defined.
(** Vectored writes: every call but the last takes at least one byte. *)
Definition vrest (bufs : list bytes) (len : nat) : list bytes :=
  let '(removed, acc) := count_removed bufs 0 len in
  match skipn removed bufs with [] => [] | b :: r => skipn (len - acc) b :: r end.
Fixpoint gvec (fuel : nat) (bufs : list bytes) (n : nat) : prog T nat :=
  match fuel with
  | O => GDone Panic
  | S f =>
      match bufs with
      | [] => GDone (Ok n)
      | _ => GWrite (concat bufs) (fun r =>
          match r with
          | inl x => GDone (Err (EIo x))
          | inr None => GDone (Err (EIo (IoOther 0)))
          | inr (Some O) => GDone (Ok n)
          | inr (Some len) =>
              match vrest bufs len with
              | [] => GDone (Ok (n + len))
              | bufs' => gvec f bufs' (n + len)
              end
          end)
      end
  end.
Lemma gvec_loop f : forall g (bufs : list bytes) n l w,
  length (concat bufs) < f -> length (w_script w) < g ->
  exec e (gvec f bufs n) l w = match vec_loop g bufs n w with (r, w') => (r, l, w') end.
Proof.
  induction f as [|f IH]; intros g bufs n l w Hf Hg; [lia|]. destruct g as [|g]; [lia|].
  cbn [vec_loop gvec]. pose proof (vec_inner_spec bufs w) as V. unfold vec_inner in V |- *.
  destruct bufs as [|b0 r0]; [reflexivity|]. remember (b0 :: r0) as bufs eqn:Eb.
  cbn [exec]. unfold bind, write_once. destruct (write1 (concat bufs) w) as [[x|[len|]] w1]; [reflexivity| |reflexivity].
  unfold vrest. destruct (count_removed bufs 0 len) as [removed acc].
  change (list ascii) with bytes in *. destruct (@skipn bytes removed bufs) as [|b r] eqn:Er.
  - destruct len; reflexivity.
  - destruct V as (V1 & _ & V3 & V4 & V5 & _). destruct len as [|len]; [reflexivity|].
    apply IH.
    + rewrite V3, skipn_length. lia.
    + destruct V4 as [V4|V4]; [lia|]. destruct (V5 V4) as [Y|Y]; discriminate Y.
Qed.
Lemma coded_vectored bufs : @coded T nat e (write_all_vectored bufs).
Proof.
  exists (match bufs with [] => GDone (Ok 0) | _ => gvec (S (length (concat bufs))) bufs 0 end).
  intros l w. unfold write_all_vectored. destruct bufs as [|b r]; [reflexivity|]. apply gvec_loop; lia.
Defined.
Lemma coded_kv kv : @coded T unit e (ob_write_kv kv).
Proof.
  induction kv as [|[k v] kv IH]; [apply coded_ret|]. cbn [ob_write_kv].
  apply coded_bind; [apply coded_vectored|intros _; exact IH].
Defined.
End coded.

Ltac codes :=
  repeat first
  [ apply coded_ret | apply coded_fail | apply coded_getl | apply coded_setl | apply coded_res
  | apply coded_write_all | apply coded_validate | apply coded_action | apply coded_json
  | apply coded_vectored | apply coded_kv
  | apply coded_maybe; intros ? | apply coded_need; intros ?
  | apply coded_bind; [|intros ?]
  | match goal with |- coded _ (match ?x with _ => _ end) => destruct x end ].

Lemma coded_stands {T} e (wrap : T -> mech) (m : option bytes -> M T state) :
  (forall i t w, mech_step e i (wrap t) w = on wrap t (m i) (wrap t) w) ->
  (forall i, coded e (m i)) -> exists p : custom T, stands_for e p wrap.
Proof.
  intros D C. exists (fun i => proj1_sig (C i)).
  intros c s input script r out s' (Em & Et & Er & Ev) H. apply run_ok in H. destruct H as [m' [w' [H [-> ->]]]].
  rewrite Em, Et, Er, Ev, D in H. unfold on in H. unfold cstep. rewrite (proj2_sig (C input)).
  destruct (m input (cs_state c) _) as [[r1 l1] w1]. injection H as -> <- ->.
  eexists. split; [reflexivity|]. repeat split.
Qed.

Theorem builtin_coded e :
  (exists p : custom unit, stands_for e p (fun _ => XPlainC)) /\
  (exists p : custom unit, stands_for e p (fun _ => XPlainS)) /\
  (exists p : custom login_cst, stands_for e p XLoginC) /\
  (exists p : custom login_sst, stands_for e p XLoginS) /\
  (exists p : custom unit, stands_for e p (fun _ => XExternalC)) /\
  (exists p : custom unit, stands_for e p (fun _ => XExternalS)) /\
  (exists p : custom unit, stands_for e p (fun _ => XAnonymousC)) /\
  (exists p : custom unit, stands_for e p (fun _ => XAnonymousS)) /\
  (exists p : custom oauth_cst, stands_for e p XXOAuth2C) /\
  (exists p : custom oauth_sst, stands_for e p XXOAuth2S) /\
  (exists p : custom oauth_cst, stands_for e p XOAuthBearerC) /\
  (exists p : custom oauth_sst, stands_for e p XOAuthBearerS).
Proof.
  split; [refine (coded_stands e _ (plain_client_step e) _ _)|].
  { intros i [] w. reflexivity. } { intros i. unfold plain_client_step. codes. }
  split; [refine (coded_stands e _ (plain_server_step e) _ _)|].
  { intros i [] w. reflexivity. } { intros i. unfold plain_server_step. codes. }
  split; [refine (coded_stands e _ (login_client_step e) _ _)|].
  { intros i t w. reflexivity. } { intros i. unfold login_client_step. codes. }
  split; [refine (coded_stands e _ (login_server_step e) _ _)|].
  { intros i t w. reflexivity. } { intros i. unfold login_server_step. codes. }
  split; [refine (coded_stands e _ (external_client_step e) _ _)|].
  { intros i [] w. reflexivity. } { intros i. unfold external_client_step. codes. }
  split; [refine (coded_stands e _ (external_server_step e) _ _)|].
  { intros i [] w. reflexivity. } { intros i. unfold external_server_step. codes. }
  split; [refine (coded_stands e _ (anonymous_client_step e) _ _)|].
  { intros i [] w. reflexivity. } { intros i. unfold anonymous_client_step. codes. }
  split; [refine (coded_stands e _ (anonymous_server_step e) _ _)|].
  { intros i [] w. reflexivity. } { intros i. unfold anonymous_server_step. codes. }
  split; [refine (coded_stands e _ (xoauth2_client_step e) _ _)|].
  { intros i t w. reflexivity. } { intros i. unfold xoauth2_client_step. codes. }
  split; [refine (coded_stands e _ (xoauth2_server_step e) _ _)|].
  { intros i t w. reflexivity. } { intros i. unfold xoauth2_server_step. codes. }
  split; [refine (coded_stands e _ (oauthbearer_client_step e) _ _)|refine (coded_stands e _ (oauthbearer_server_step e) _ _)].
  { intros i t w. reflexivity. } { intros i. unfold oauthbearer_client_step. codes. }
  { intros i t w. reflexivity. } { intros i. unfold oauthbearer_server_step. codes. }
Qed.
