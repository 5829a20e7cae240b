(** Relations between the world before and after a step that every computation preserves. *)
From Coq Require Import Lia.
From Verif Require Import Bytes Types World CallbackSpec WorldFacts Simple OAuth Scram Gssapi
  Session.
Open Scope m_scope.

(** [W] relates the worlds before and after [m], whatever the outcome. *)
Definition keeps {L A} (W : world -> world -> Prop) (m : M L A) : Prop :=
  forall l w, match m l w with (_, _, w') => W w w' end.

Record frame (W : world -> world -> Prop) : Prop := {
  fr_refl : forall w, W w w;
  fr_trans : forall a b c, W a b -> W b c -> W a c }.

(** [W] allows this event to be observed. *)
Definition admits (W : world -> world -> Prop) (ev : event) : Prop :=
  forall w, W w (add_events [ev] w).

(** [W] allows requests for [q]. *)
Definition asks (W : world -> world -> Prop) (q : prop) : Prop :=
  (forall c, admits W (EvRequest q c)) /\ admits W (EvClosure q) /\
  (forall v, admits W (EvAnswer q v)).

Section Keeps.
Context (W : world -> world -> Prop) (F : frame W).

Lemma keeps_ret {L A} (a : A) : keeps W (@ret L A a).
Proof. intros l w; apply F. Qed.
Lemma keeps_fail {L A} x : keeps W (@fail L A x).
Proof. intros l w; apply F. Qed.
Lemma keeps_panic {L A} : keeps W (@panic L A).
Proof. intros l w; apply F. Qed.
Lemma keeps_getl {L} : keeps W (@getl L).
Proof. intros l w; apply F. Qed.
Lemma keeps_setl {L} (x : L) : keeps W (setl x).
Proof. intros l w; apply F. Qed.
Lemma keeps_of_res {L A} (r : res serr A) : keeps W (@of_res L A r).
Proof. intros l w; apply F. Qed.
Lemma keeps_bind {L A B} (m : M L A) (f : A -> M L B) :
  keeps W m -> (forall a, keeps W (f a)) -> keeps W (bind m f).
Proof.
  intros Hm Hf l w. unfold bind. specialize (Hm l w).
  destruct (m l w) as [[[a|x|] l1] w1]; auto.
  specialize (Hf a l1 w1). destruct (f a l1 w1) as [[r l2] w2].
  eapply fr_trans; eauto.
Qed.
Lemma keeps_locally {L L' A} (l0 : L') (m : M L' A) : keeps W m -> keeps W (@locally L L' A l0 m).
Proof.
  intros Hm l w. unfold locally. specialize (Hm l0 w).
  destruct (m l0 w) as [[[a|x|] l1] w1]; auto.
Qed.
Lemma keeps_ignore {L A} (m : M L A) : keeps W m -> keeps W (ignore m).
Proof.
  intros Hm l w. unfold ignore. specialize (Hm l w).
  destruct (m l w) as [[[a|x|] l1] w1]; auto.
Qed.
Lemma keeps_on {L A} (wrap : L -> mech) l0 (m : M L A) : keeps W m -> keeps W (on wrap l0 m).
Proof.
  intros Hm l w. unfold on. specialize (Hm l0 w). destruct (m l0 w) as [[r l1] w1]. exact Hm.
Qed.
Lemma keeps_log {L} ev : admits W ev -> keeps W (@log L ev).
Proof. intros H l w. unfold log. rewrite add_event_events. apply H. Qed.

Lemma admits_closures q cs w :
  Forall (fun ev => ev = EvClosure q) cs -> admits W (EvClosure q) -> W w (add_events cs w).
Proof.
  intros H Ha. revert w; induction H as [|ev cs -> _ IH]; intros w.
  - rewrite add_events_nil. apply F.
  - eapply fr_trans; [exact F|apply Ha|]. specialize (IH (add_events [EvClosure q] w)).
    rewrite add_events_app in IH. exact IH.
Qed.

Lemma keeps_run_satisfy_at {L G} q (f : pval q -> M L G) p st :
  admits W (EvClosure q) -> (forall v, admits W (EvAnswer q v)) -> (forall v, keeps W (f v)) ->
  forall l w, match run_satisfy q f p st l w with (_, _, _, w') => W w w' end.
Proof.
  intros Hc Ha Hf.
  assert (Hcr : forall st v l w, match cr_satisfy q f st v l w with (_, _, _, w') => W w w' end).
  { intros st0 v l w. unfold cr_satisfy. destruct st0; try apply F.
    unfold bind, log. rewrite add_event_events. specialize (Hf v l (add_events [EvAnswer q v] w)).
    destruct (f v l (add_events [EvAnswer q v] w)) as [[[g|x|] l1] w1];
      (eapply fr_trans; [exact F|apply Ha|exact Hf]). }
  revert st. induction p as [r|p v k IH|p c k IH|p k IH|p k IH]; intros st l w;
    cbn [run_satisfy].
  - apply F.
  - destruct (castp v) as [v'|]; [|apply IH].
    specialize (Hcr st v' l w). destruct (cr_satisfy q f st v' l w) as [[[[u|x|] st1] l1] w1].
    + specialize (IH (Some ECbEarlyReturn) st1 l1 w1).
      destruct (run_satisfy q f (k (Some ECbEarlyReturn)) st1 l1 w1) as [[[r2 st2] l2] w2].
      eapply fr_trans; eauto.
    + specialize (IH (Some x) st1 l1 w1).
      destruct (run_satisfy q f (k (Some x)) st1 l1 w1) as [[[r2 st2] l2] w2].
      eapply fr_trans; eauto.
    + assumption.
  - destruct (prop_eq_dec p q) as [E|]; [|apply IH]. subst p.
    rewrite add_event_events. remember (add_events [EvClosure q] w) as w1.
    assert (H1 : W w w1) by (subst; apply Hc).
    assert (Hgo : forall x st l w2, W w w2 ->
        match run_satisfy q f (k x) st l w2 with (_, _, _, w') => W w w' end).
    { intros x st0 l0 w2 H2. specialize (IH x st0 l0 w2).
      destruct (run_satisfy q f (k x) st0 l0 w2) as [[[r3 st3] l3] w3].
      eapply fr_trans; eauto. }
    destruct c as [x|v]; [apply Hgo; assumption|].
    destruct (castp v) as [v'|]; [|apply Hgo; assumption].
    specialize (Hcr st v' l w1). destruct (cr_satisfy q f st v' l w1) as [[[[u|x|] st2] l2] w2].
    + apply Hgo. eapply fr_trans; eauto.
    + apply Hgo. eapply fr_trans; eauto.
    + eapply fr_trans; eauto.
  - apply IH.
  - apply IH.
Qed.
Lemma keeps_run_satisfy {L G} q (f : pval q -> M L G) p st :
  asks W q -> (forall v, keeps W (f v)) ->
  forall l w, match run_satisfy q f p st l w with (_, _, _, w') => W w w' end.
Proof. intros [_ [Hc Ha]]. apply keeps_run_satisfy_at; assumption. Qed.

Lemma keeps_maybe_need_with {L G} e q c (f : pval q -> M L G) :
  asks W q -> (forall v, keeps W (f v)) -> keeps W (maybe_need_with e q c f).
Proof.
  intros Hq Hf l w. unfold maybe_need_with. rewrite add_event_events.
  pose proof (keeps_run_satisfy q f (e_cb e (w_trace w) (e_sd e) c (RSatisfy q)) CrOpen Hq Hf l
    (add_events [EvRequest q c] w)) as H.
  destruct (run_satisfy _ _ _ _ _ _) as [[[r st] l1] w1].
  assert (W w w1) by (eapply fr_trans; [exact F|apply (proj1 Hq)|exact H]).
  destruct r as [r|x|]; auto. destruct (mask_early r) as [[]|]; auto.
Qed.
Lemma keeps_need_with {L G} e q c (f : pval q -> M L G) :
  asks W q -> (forall v, keeps W (f v)) -> keeps W (need_with e q c f).
Proof.
  intros Hq Hf. unfold need_with. apply keeps_bind; [apply keeps_maybe_need_with; assumption|].
  intros [g|]; [apply keeps_ret|apply keeps_fail].
Qed.
Lemma keeps_maybe_need_cb_data {L G} e name c (f : bytes -> M L G) :
  asks W PChannelBindings -> (forall n, admits W (EvChan n)) ->
  (forall v, keeps W (f v)) -> keeps W (maybe_need_cb_data e name c f).
Proof.
  intros Hq Hn Hf. unfold maybe_need_cb_data. apply keeps_bind; [apply keeps_log; auto|].
  intros _. destruct (e_chan e name).
  - apply keeps_bind; [apply Hf|]. intros; apply keeps_ret.
  - apply keeps_maybe_need_with; assumption.
Qed.
Lemma keeps_need_cb_data {L G} e name c (f : bytes -> M L G) :
  asks W PChannelBindings -> (forall n, admits W (EvChan n)) ->
  (forall v, keeps W (f v)) -> keeps W (need_cb_data e name c f).
Proof.
  intros Hq Hn Hf. unfold need_cb_data.
  apply keeps_bind; [apply keeps_maybe_need_cb_data; assumption|].
  intros [g|]; [apply keeps_ret|apply keeps_fail].
Qed.

Lemma run_action_taken q p slot tr :
  exists evs, Forall (fun ev => ev = EvTaken q) evs /\
    snd (run_action q p slot tr) = tr ++ evs.
Proof.
  revert slot tr. induction p as [r|p x k IH|p c k IH|p k IH|p k IH]; intros slot tr;
    cbn [run_action]; try apply IH.
  - exists []. rewrite app_nil_r. split; [constructor|reflexivity].
  - destruct (prop_eq_dec p q) as [E|N]; [|apply IH].
    destruct slot as [v|]; [|apply IH].
    destruct (IH (Some (eq_rect q pval v p (eq_sym E))) None (tr ++ [EvTaken q]))
      as [evs [Hf Ev]].
    exists (EvTaken q :: evs). split; [constructor; auto|]. rewrite Ev, <- app_assoc. reflexivity.
Qed.

Lemma keeps_action {L} e q c v :
  admits W (EvAction q v c) -> admits W (EvTaken q) -> keeps W (@action L e q c v).
Proof.
  intros H1 H2 l w. unfold action.
  pose proof (run_action_taken q (e_cb e (w_trace w) (e_sd e) c (RAction q)) (Some v)
    (w_trace w ++ [EvAction q v c])) as [evs [Hf Ev]].
  destruct (run_action _ _ _ _) as [[r slot] tr]. simpl in Ev.
  assert (HW : W w (mk_world (w_out w) (w_script w) tr (w_rng w) (w_val w))).
  { rewrite Ev. change (W w (add_events evs (add_events [EvAction q v c] w))).
    eapply fr_trans; [exact F|apply H1|]. clear - F Hf H2.
    generalize (add_events [EvAction q v c] w). induction Hf as [|ev r -> _ IH]; intros w1.
    - rewrite add_events_nil. apply F.
    - eapply fr_trans; [exact F|apply H2|]. specialize (IH (add_events [EvTaken q] w1)).
      rewrite add_events_app in IH. exact IH. }
  destruct (mask_early r); auto. destruct slot; auto.
Qed.

(** Writing and drawing random numbers. *)
Definition writes : Prop := forall p w w', wrote p w w' -> W w w'.
Definition draws_ok : Prop := forall w,
  W w (mk_world (w_out w) (w_script w) (w_trace w) (S (w_rng w)) (w_val w)).

Lemma keeps_write_all {L} data : writes -> keeps W (@write_all L data).
Proof.
  intros H l w. destruct (write_all_spec data l w) as [p [q [w' [_ [Hw [[-> _]|[x ->]]]]]]]; eauto.
Qed.
Lemma keeps_write_all_vectored {L} bufs : writes -> keeps W (@write_all_vectored L bufs).
Proof.
  intros H l w.
  destruct (write_all_vectored_spec bufs l w) as [p [q [w' [_ [Hw [[-> _]|[x ->]]]]]]]; eauto.
Qed.
Lemma keeps_draws {L} e n : draws_ok -> keeps W (@draws L e n).
Proof.
  intros H. induction n as [|n IH]; [apply keeps_ret|]. cbn [draws].
  apply keeps_bind; [|intros x; apply keeps_bind; [exact IH|intros; apply keeps_ret]].
  intros l w. apply H.
Qed.
End Keeps.

(** * What no step ever undoes *)

Definition ext (w w' : world) : Prop :=
  exists evs out, w_trace w' = w_trace w ++ evs /\ w_out w' = w_out w ++ out /\
    w_rng w <= w_rng w' /\ script_left (w_script w) (w_script w') /\
    (validations evs = [] -> w_val w' = w_val w) /\
    (forall x, w_val w = Some x -> w_val w' = Some x).

Lemma ext_frame : frame ext.
Proof.
  split.
  - intros w. exists [], []. rewrite !app_nil_r. repeat split; auto. apply script_left_refl.
  - intros a b c [e1 [o1 [T1 [O1 [R1 [S1 [V1 X1]]]]]]] [e2 [o2 [T2 [O2 [R2 [S2 [V2 X2]]]]]]].
    exists (e1 ++ e2), (o1 ++ o2). repeat split.
    + rewrite T2, T1, app_assoc. reflexivity.
    + rewrite O2, O1, app_assoc. reflexivity.
    + lia.
    + eapply script_left_trans; eauto.
    + rewrite validations_app. intros H. apply app_eq_nil in H. destruct H as [Ha Hb].
      rewrite V2, V1; auto.
    + auto.
Qed.
Lemma ext_admits ev : admits ext ev.
Proof.
  intros w. exists [ev], []. rewrite app_nil_r. repeat split; auto. apply script_left_refl.
Qed.
Lemma ext_asks q : asks ext q.
Proof. repeat split; intros; apply ext_admits. Qed.
Lemma ext_writes : writes ext.
Proof.
  intros p w w' [Ho [Ht [Hr [Hv Hs]]]]. exists [], p. rewrite app_nil_r.
  repeat split; auto; [lia|congruence].
Qed.
Lemma ext_draws : draws_ok ext.
Proof.
  intros w. exists [], []. simpl. rewrite !app_nil_r. repeat split; auto. apply script_left_refl.
Qed.

Lemma run_validate_some tag p x : snd (run_validate tag p (Some x)) = Some x.
Proof.
  induction p as [r|t y k IH|t f k IH|t k IH]; cbn [run_validate].
  - reflexivity.
  - destruct (Nat.eqb t tag); apply IH.
  - destruct (Nat.eqb t tag); apply IH.
  - apply IH.
Qed.

Lemma ext_validate {L} e c : keeps ext (@validate L e c).
Proof.
  intros l w. unfold validate.
  pose proof (run_validate_some (e_vtag e) (e_vcb e (w_trace w) (e_sd e) c)) as Hs.
  destruct (run_validate (e_vtag e) (e_vcb e (w_trace w) (e_sd e) c) (w_val w)) as [r slot] eqn:E.
  assert (H : ext w (mk_world (w_out w) (w_script w) (w_trace w ++ [EvValidate c])
                       (w_rng w) slot)).
  { exists [EvValidate c], []. simpl. rewrite app_nil_r. repeat split; auto.
    - apply script_left_refl.
    - discriminate.
    - intros x Hx. specialize (Hs x). rewrite <- Hx, E in Hs. simpl in Hs. congruence. }
  destruct r; exact H.
Qed.

Ltac unfold_steps :=
  unfold plain_client_step, plain_server_step, login_client_step, login_server_step,
    external_client_step, external_server_step, anonymous_client_step, anonymous_server_step,
    xoauth2_client_step, xoauth2_server_step, oauthbearer_client_step, oauthbearer_server_step,
    scram_client_step, scram_server_step, gss_client_step, gss_server_step,
    send_client_first, client_cbflag, push_gs2, set_cbdata, esc, handle_server_first,
    scram_parse, scram_proto, client_keys, exact, handle_server_final, handle_client_first,
    handle_client_final, send_final, generate_nonce, random_bytes,
    gss_client_pending, gss_check_acceptable, gss_try, gss_err, gss_server_pending,
    gss_server_installed, gss_wrap_data, gss_unwrap_data.

Lemma keeps_write_json {L} W e x : writes W -> keeps W (@write_json L e x).
Proof.
  intros Hw l w. unfold write_json.
  pose proof (keeps_write_all W (L := L) (e_json_to e x) Hw l w) as H.
  destruct (write_all _ l w) as [[[]]]; exact H.
Qed.
Lemma keeps_ob_write_kv {L} W (F : frame W) kv : writes W -> keeps W (@ob_write_kv L kv).
Proof.
  intros Hw. induction kv as [|[k v] r IH]; cbn [ob_write_kv]; [apply (keeps_ret _ F)|].
  apply (keeps_bind _ F); [apply keeps_write_all_vectored; assumption|]. intros; exact IH.
Qed.

(** One structural step of a [keeps] proof for frame [F], chosen by the head of the term. *)
Ltac keep_step F :=
  lazymatch goal with
  | |- keeps _ (ret _) => apply (keeps_ret _ F)
  | |- keeps _ (fail _) => apply (keeps_fail _ F)
  | |- keeps _ panic => apply (keeps_panic _ F)
  | |- keeps _ getl => apply (keeps_getl _ F)
  | |- keeps _ (setl _) => apply (keeps_setl _ F)
  | |- keeps _ (of_res _) => apply (keeps_of_res _ F)
  | |- keeps _ (bind _ _) => apply (keeps_bind _ F); [|intros ?]
  | |- keeps _ (locally _ _) => apply keeps_locally
  | |- keeps _ (ignore _) => apply keeps_ignore
  | |- keeps _ (on _ _ _) => apply keeps_on
  | |- keeps _ (need_with _ _ _ _) => apply (keeps_need_with _ F); [|intros ?]
  | |- keeps _ (maybe_need_with _ _ _ _) => apply (keeps_maybe_need_with _ F); [|intros ?]
  | |- keeps _ (need_cb_data _ _ _ _) => apply (keeps_need_cb_data _ F); [| |intros ?]
  | |- keeps _ (maybe_need_cb_data _ _ _ _) =>
      apply (keeps_maybe_need_cb_data _ F); [| |intros ?]
  | |- keeps _ (action _ _ _ _) => apply (keeps_action _ F)
  | |- keeps _ (write_all_vectored _) => apply keeps_write_all_vectored
  | |- keeps _ (write_all _) => apply keeps_write_all
  | |- keeps _ (write_json _ _) => apply (keeps_write_json _)
  | |- keeps _ (ob_write_kv _) => apply (keeps_ob_write_kv _ F)
  | |- keeps _ (draws _ _) => apply (keeps_draws _ F)
  | |- keeps _ (log _) => apply keeps_log
  | |- keeps _ (match ?x with _ => _ end) => destruct x
  | |- keeps _ (scram_parse _) => unfold scram_parse
  | |- keeps _ (scram_proto _) => unfold scram_proto
  | |- keeps _ (exact _ _) => unfold exact
  | |- keeps _ (gss_try _) => unfold gss_try
  | |- keeps _ gss_err => unfold gss_err
  end.

Lemma step_ext e input : keeps ext (mech_step e input).
Proof.
  pose proof ext_frame as F. unfold mech_step.
  apply (keeps_bind _ F); [apply (keeps_getl _ F)|]. intros m.
  destruct m; unfold_steps;
  repeat (first
    [ keep_step F | apply ext_validate | apply ext_asks | apply ext_writes | apply ext_draws | apply ext_admits
    | intros; apply ext_admits ]).
Qed.

Lemma encode_ext e input : keeps ext (mech_encode e input).
Proof.
  pose proof ext_frame as F. unfold mech_encode, gss_client_encode, gss_server_encode.
  unfold_steps.
  repeat (first [ keep_step F | apply ext_writes ]).
Qed.
Lemma decode_ext e input : keeps ext (mech_decode e input).
Proof.
  pose proof ext_frame as F. unfold mech_decode, gss_client_decode, gss_server_decode.
  unfold_steps.
  repeat (first [ keep_step F | apply ext_writes ]).
Qed.
