(** A step that succeeds with some writer behaves exactly as it does with a writer that
    accepts everything at once. *)
From Coq Require Import Lia.
From Verif Require Import Bytes Types World CallbackSpec WorldFacts MonadFacts Simple OAuth
  Scram Gssapi Session Frame Spec_Session.
Open Scope m_scope.

(** The same world with a perfect writer. *)
Definition perfect (w : world) : world :=
  mk_world (w_out w) [] (w_trace w) (w_rng w) (w_val w).

(** Errors a failing writer can lead to. *)
Definition io_failure {A} (r : res serr A) : Prop :=
  match r with Err (EIo _) | Err (EMech MOAuthBearerSerde) => True | _ => False end.

(** [Z]: what is known about the script. *)
Definition hereditary (Z : list wresp -> Prop) : Prop :=
  forall s s', script_left s s' -> Z s -> Z s'.

Definition sim {L A} (Z : list wresp -> Prop) (m : M L A) : Prop :=
  forall l w r l' w', Z (w_script w) -> m l w = (r, l', w') ->
    io_failure r \/
    (script_left (w_script w) (w_script w') /\ m l (perfect w) = (r, l', perfect w')).

Section Sim.
Context (Z : list wresp -> Prop) (HZ : hereditary Z).

Lemma sim_pure {L A} (g : L -> res serr A * L) (m : M L A) :
  (forall l w, m l w = (fst (g l), snd (g l), w)) -> sim Z m.
Proof.
  intros H l w r l' w' _ E. rewrite H in E. injection E as <- <- <-. right.
  split; [apply script_left_refl|apply H].
Qed.
Lemma sim_ret {L A} (a : A) : sim Z (@ret L A a).
Proof. apply (sim_pure (fun l => (Ok a, l))). reflexivity. Qed.
Lemma sim_fail {L A} x : sim Z (@fail L A x).
Proof. apply (sim_pure (fun l => (Err x, l))). reflexivity. Qed.
Lemma sim_panic {L A} : sim Z (@panic L A).
Proof. apply (sim_pure (fun l => (Panic, l))). reflexivity. Qed.
Lemma sim_getl {L} : sim Z (@getl L).
Proof. apply (sim_pure (fun l => (Ok l, l))). reflexivity. Qed.
Lemma sim_setl {L} (x : L) : sim Z (setl x).
Proof. apply (sim_pure (fun l => (Ok tt, x))). reflexivity. Qed.
Lemma sim_of_res {L A} (x : res serr A) : sim Z (@of_res L A x).
Proof. apply (sim_pure (fun l => (x, l))). reflexivity. Qed.

Lemma sim_bind {L A B} (m : M L A) (f : A -> M L B) :
  sim Z m -> (forall a, sim Z (f a)) -> sim Z (bind m f).
Proof.
  intros Hm Hf l w r l' w' Hz H. unfold bind in *.
  destruct (m l w) as [[r1 l1] w1] eqn:E.
  destruct (Hm _ _ _ _ _ Hz E) as [Hio|[Hs Hp]].
  - left. destruct r1 as [a|x|]; simpl in Hio; try contradiction.
    injection H as <- <- <-. exact Hio.
  - rewrite Hp. destruct r1 as [a|x|].
    + destruct (Hf a _ _ _ _ _ (HZ _ _ Hs Hz) H) as [Hio|[Hs' Hp']]; [left; exact Hio|].
      right. split; [eapply script_left_trans; eauto|exact Hp'].
    + injection H as <- <- <-. right. auto.
    + injection H as <- <- <-. right. auto.
Qed.
Lemma sim_locally {L L' A} (l0 : L') (m : M L' A) : sim Z m -> sim Z (@locally L L' A l0 m).
Proof.
  intros Hm l w r l' w' Hz H. unfold locally in *.
  destruct (m l0 w) as [[r1 l1] w1] eqn:E.
  destruct (Hm _ _ _ _ _ Hz E) as [Hio|[Hs Hp]].
  - left. destruct r1; simpl in Hio; try contradiction. injection H as <- <- <-. exact Hio.
  - right. rewrite Hp. destruct r1; injection H as <- <- <-; auto.
Qed.
Lemma sim_on {L A} (wrap : L -> mech) l0 (m : M L A) : sim Z m -> sim Z (on wrap l0 m).
Proof.
  intros Hm l w r l' w' Hz H. unfold on in *.
  destruct (m l0 w) as [[r1 l1] w1] eqn:E. injection H as <- <- <-.
  destruct (Hm _ _ _ _ _ Hz E) as [Hio|[Hs Hp]]; [left; exact Hio|].
  right. rewrite Hp. auto.
Qed.
Lemma sim_log {L} ev : sim Z (@log L ev).
Proof.
  intros l w r l' w' _ [= <- <- <-]. right. split; [apply script_left_refl|reflexivity].
Qed.
Lemma sim_draws {L} e n : sim Z (@draws L e n).
Proof.
  induction n as [|n IH]; cbn [draws]; [apply sim_ret|].
  apply sim_bind; [|intros x; apply sim_bind; [exact IH|intros; apply sim_ret]].
  intros l w r l' w' _ [= <- <- <-]. right. split; [apply script_left_refl|reflexivity].
Qed.
Lemma sim_validate {L} e c : sim Z (@validate L e c).
Proof.
  intros l w r l' w' _ H. unfold validate in *. simpl.
  destruct (run_validate _ _ _) as [[x|] slot]; injection H as <- <- <-; right;
    (split; [apply script_left_refl|reflexivity]).
Qed.
Lemma sim_action {L} e q c v : sim Z (@action L e q c v).
Proof.
  intros l w r l' w' _ H. unfold action in *. simpl.
  destruct (run_action _ _ _ _) as [[x slot] tr].
  destruct (mask_early x); [|destruct slot]; injection H as <- <- <-; right;
    (split; [apply script_left_refl|reflexivity]).
Qed.
Lemma sim_ignore_action {L} e q c v : sim Z (ignore (@action L e q c v)).
Proof.
  intros l w r l' w' _ H. unfold ignore, action in *. simpl.
  destruct (run_action _ _ _ _) as [[x slot] tr].
  destruct (mask_early x); [|destruct slot]; injection H as <- <- <-; right;
    (split; [apply script_left_refl|reflexivity]).
Qed.

Lemma perfect_wrote p w w' : wrote p w w' -> perfect w' = add_out p (perfect w).
Proof.
  intros [O [T [R [V S]]]]. unfold perfect, add_out. simpl. rewrite O, T, R, V. reflexivity.
Qed.

Lemma sim_write_all {L} data : sim Z (@write_all L data).
Proof.
  intros l w r l' w' _ H. apply write_all_results in H.
  destruct H as [-> [[-> Hw]|[x [p [q [-> _]]]]]]; [right|left; exact I].
  split; [apply Hw|]. rewrite write_all_full by reflexivity.
  rewrite (perfect_wrote _ _ _ Hw). reflexivity.
Qed.
Lemma sim_write_json {L} e x : sim Z (@write_json L e x).
Proof.
  intros l w r l' w' Hz H. unfold write_json in *.
  destruct (write_all (e_json_to e x) l w) as [[r1 l1] w1] eqn:E.
  apply write_all_results in E.
  destruct E as [-> [[-> Hw]|[y [p [q [-> _]]]]]]; injection H as <- <- <-; [right|left; exact I].
  split; [apply Hw|]. rewrite write_all_full by reflexivity.
  rewrite (perfect_wrote _ _ _ Hw). reflexivity.
Qed.
Lemma sim_write_all_vectored {L} bufs :
  (forall s, Z s -> no_zero s) -> sim Z (@write_all_vectored L bufs).
Proof.
  intros Hn l w r l' w' Hz H.
  destruct (write_all_vectored_spec bufs l w) as [p [q [w1 [E [Hw [[H1 Hq]|[y H1]]]]]]];
    rewrite H1 in H; injection H as <- <- <-; [right|left; exact I].
  split; [apply Hw|]. rewrite (Hq (Hn _ Hz)), app_nil_r in E.
  rewrite write_all_vectored_full by reflexivity.
  rewrite (perfect_wrote _ _ _ Hw), E. reflexivity.
Qed.
Lemma sim_ob_write_kv {L} kv : (forall s, Z s -> no_zero s) -> sim Z (@ob_write_kv L kv).
Proof.
  intros Hn. induction kv as [|[k v] r IH]; cbn [ob_write_kv]; [apply sim_ret|].
  apply sim_bind; [apply sim_write_all_vectored; assumption|]. intros; exact IH.
Qed.

Lemma run_satisfy_sim {L G} q (f : pval q -> M L G) p :
  bubbling p -> (forall v, sim Z (f v)) ->
  forall l w r st l' w', Z (w_script w) -> run_satisfy q f p CrOpen l w = (r, st, l', w') ->
    (exists x, r = Ok (Some x) /\ io_failure (@Err serr unit x)) \/
    (script_left (w_script w) (w_script w') /\
     run_satisfy q f p CrOpen l (perfect w) = (r, st, l', perfect w')).
Proof.
  intros Hb Hf. induction p as [x|p v k IH|p c k IH|p k IH|p k IH]; intros l w r st l' w' Hz H;
    cbn [run_satisfy] in H |- *; cbn [bubbling] in Hb.
  - injection H as <- <- <- <-. right. split; [apply script_left_refl|reflexivity].
  - destruct Hb as [Hb1 Hb2].
    destruct (castp v) as [v'|]; [|apply IH; assumption].
    unfold cr_satisfy, bind, log in *. rewrite add_event_events in *.
    change (add_events [EvAnswer q v'] (perfect w))
      with (perfect (add_events [EvAnswer q v'] w)).
    destruct (f v' l (add_events [EvAnswer q v'] w)) as [[r1 l1] w1] eqn:E.
    destruct (Hf v' l (add_events [EvAnswer q v'] w) _ _ _ Hz E) as [Hio|[Hs Hp]].
    + destruct r1 as [g|x|]; simpl in Hio; try contradiction. left.
      rewrite Hb1 in H. cbn [run_satisfy] in H. injection H as <- <- <- <-. eauto.
    + rewrite Hp. right. destruct r1 as [g|x|];
        rewrite ?Hb1 in *; cbn [run_satisfy] in *; injection H as <- <- <- <-; auto.
  - destruct Hb as [Hb1 Hb2].
    destruct (prop_eq_dec p q) as [Epq|]; [|apply IH; assumption].
    rewrite add_event_events in *.
    change (add_events [EvClosure p] (perfect w)) with (perfect (add_events [EvClosure p] w)).
    destruct c as [x|v].
    { rewrite Hb1 in *. cbn [run_satisfy] in *. injection H as <- <- <- <-. right.
      split; [apply script_left_refl|reflexivity]. }
    destruct (castp v) as [v'|].
    2:{ destruct (IH None Hb2 l (add_events [EvClosure p] w) _ _ _ _ Hz H) as [Hx|[Hs Hp]]; [left; exact Hx|].
        right. split; [exact Hs|exact Hp]. }
    unfold cr_satisfy, bind, log in *. rewrite add_event_events in *.
    change (add_events [EvAnswer q v'] (perfect (add_events [EvClosure p] w)))
      with (perfect (add_events [EvAnswer q v'] (add_events [EvClosure p] w))).
    destruct (f v' l (add_events [EvAnswer q v'] (add_events [EvClosure p] w)))
      as [[r1 l1] w1] eqn:E.
    destruct (Hf v' l (add_events [EvAnswer q v'] (add_events [EvClosure p] w)) _ _ _ Hz E) as [Hio|[Hs Hp]].
    + destruct r1 as [g|x|]; simpl in Hio; try contradiction. left.
      rewrite Hb1 in H. cbn [run_satisfy] in H. injection H as <- <- <- <-. eauto.
    + rewrite Hp. right. destruct r1 as [g|x|];
        rewrite ?Hb1 in *; cbn [run_satisfy] in *; injection H as <- <- <- <-; auto.
  - apply IH; auto.
  - apply IH; auto.
Qed.

Lemma sim_maybe_need_with {L G} e q c (f : pval q -> M L G) :
  polite e -> (forall v, sim Z (f v)) -> sim Z (maybe_need_with e q c f).
Proof.
  intros Hp Hf l w r l' w' Hz H. unfold maybe_need_with in *. rewrite add_event_events in *.
  change (add_events [EvRequest q c] (perfect w)) with (perfect (add_events [EvRequest q c] w)).
  simpl w_trace.
  destruct (run_satisfy q f (e_cb e (w_trace w) (e_sd e) c (RSatisfy q)) CrOpen l
     (add_events [EvRequest q c] w)) as [[[r1 st] l1] w1] eqn:E.
  destruct (run_satisfy_sim q f _ (Hp _ _ _) Hf _ (add_events [EvRequest q c] w) _ _ _ _ Hz E) as [[x [-> Hio]]|[Hs Hq]].
  - left. destruct x; simpl in Hio; try contradiction; simpl in H; injection H as <- <- <-;
      exact Hio.
  - rewrite Hq. right. destruct r1 as [x|x|]; [destruct (mask_early x) as [[]|]|..];
      injection H as <- <- <-; auto.
Qed.
Lemma sim_need_with {L G} e q c (f : pval q -> M L G) :
  polite e -> (forall v, sim Z (f v)) -> sim Z (need_with e q c f).
Proof.
  intros Hp Hf. unfold need_with. apply sim_bind; [apply sim_maybe_need_with; assumption|].
  intros [g|]; [apply sim_ret|apply sim_fail].
Qed.
Lemma sim_maybe_need_cb_data {L G} e name c (f : bytes -> M L G) :
  polite e -> (forall v, sim Z (f v)) -> sim Z (maybe_need_cb_data e name c f).
Proof.
  intros Hp Hf. unfold maybe_need_cb_data. apply sim_bind; [apply sim_log|]. intros _.
  destruct (e_chan e name).
  - apply sim_bind; [apply Hf|]. intros; apply sim_ret.
  - apply sim_maybe_need_with; assumption.
Qed.
Lemma sim_need_cb_data {L G} e name c (f : bytes -> M L G) :
  polite e -> (forall v, sim Z (f v)) -> sim Z (need_cb_data e name c f).
Proof.
  intros Hp Hf. unfold need_cb_data. apply sim_bind; [apply sim_maybe_need_cb_data; assumption|].
  intros [g|]; [apply sim_ret|apply sim_fail].
Qed.
End Sim.

Ltac sim_step HZ Hp :=
  lazymatch goal with
  | |- sim _ (ret _) => apply sim_ret
  | |- sim _ (fail _) => apply sim_fail
  | |- sim _ panic => apply sim_panic
  | |- sim _ getl => apply sim_getl
  | |- sim _ (setl _) => apply sim_setl
  | |- sim _ (of_res _) => apply sim_of_res
  | |- sim _ (bind _ _) => apply (sim_bind _ HZ); [|intros ?]
  | |- sim _ (locally _ _) => apply sim_locally
  | |- sim _ (ignore (action _ _ _ _)) => apply sim_ignore_action
  | |- sim _ (on _ _ _) => apply sim_on
  | |- sim _ (need_with _ _ _ _) => apply (sim_need_with _ HZ); [exact Hp|intros ?]
  | |- sim _ (maybe_need_with _ _ _ _) => apply sim_maybe_need_with; [exact Hp|intros ?]
  | |- sim _ (need_cb_data _ _ _ _) => apply (sim_need_cb_data _ HZ); [exact Hp|intros ?]
  | |- sim _ (maybe_need_cb_data _ _ _ _) =>
      apply (sim_maybe_need_cb_data _ HZ); [exact Hp|intros ?]
  | |- sim _ (action _ _ _ _) => apply sim_action
  | |- sim _ (validate _ _) => apply sim_validate
  | |- sim _ (write_all_vectored _) => apply sim_write_all_vectored
  | |- sim _ (write_all _) => apply sim_write_all
  | |- sim _ (write_json _ _) => apply sim_write_json
  | |- sim _ (ob_write_kv _) => apply (sim_ob_write_kv _ HZ)
  | |- sim _ (draws _ _) => apply (sim_draws _ HZ)
  | |- sim _ (log _) => apply sim_log
  | |- sim _ (match ?x with _ => _ end) => destruct x
  | |- sim _ (scram_parse _) => unfold scram_parse
  | |- sim _ (scram_proto _) => unfold scram_proto
  | |- sim _ (exact _ _) => unfold exact
  | |- sim _ (gss_try _) => unfold gss_try
  | |- sim _ gss_err => unfold gss_err
  end.

Lemma no_zero_hereditary : hereditary no_zero.
Proof. intros s s' H; apply no_zero_left; assumption. Qed.
Lemma true_hereditary : hereditary (fun _ => True).
Proof. intros s s' _ _; exact I. Qed.

Lemma step_sim e input : polite e -> sim no_zero (mech_step e input).
Proof.
  intros Hp. pose proof no_zero_hereditary as HZ. unfold mech_step.
  apply (sim_bind _ HZ); [apply sim_getl|]. intros m.
  destruct m; unfold_steps; repeat (first [sim_step HZ Hp | (intros ? Hns; exact Hns)]).
Qed.

Lemma step_sim_plain e input m l w r l' w' : polite e -> plain_writes m = true -> l = m ->
  mech_step e input l w = (r, l', w') ->
  io_failure r \/ (script_left (w_script w) (w_script w') /\
                   mech_step e input l (perfect w) = (r, l', perfect w')).
Proof.
  intros Hp Hm -> H. pose proof true_hereditary as HZ.
  unfold mech_step, bind, getl in *. revert H.
  match goal with |- ?f w = _ -> _ => idtac | _ => idtac end.
  enough (Hs : sim (fun _ => True) (match m with
    | XPlainC => on (fun _ => XPlainC) tt (plain_client_step e input)
    | XPlainS => on (fun _ => XPlainS) tt (plain_server_step e input)
    | XLoginC s => on XLoginC s (login_client_step e input)
    | XLoginS s => on XLoginS s (login_server_step e input)
    | XExternalC => on (fun _ => XExternalC) tt (external_client_step e input)
    | XExternalS => on (fun _ => XExternalS) tt (external_server_step e input)
    | XAnonymousC => on (fun _ => XAnonymousC) tt (anonymous_client_step e input)
    | XAnonymousS => on (fun _ => XAnonymousS) tt (anonymous_server_step e input)
    | XXOAuth2C s => on XXOAuth2C s (xoauth2_client_step e input)
    | XXOAuth2S s => on XXOAuth2S s (xoauth2_server_step e input)
    | XOAuthBearerC s => on XOAuthBearerC s (oauthbearer_client_step e input)
    | XOAuthBearerS s => on XOAuthBearerS s (oauthbearer_server_step e input)
    | XScramC a s => on (XScramC a) s (scram_client_step e a input)
    | XScramS a s => on (XScramS a) s (scram_server_step e a input)
    | XGssapiC s => on XGssapiC s (gss_client_step e input)
    | XGssapiS s => on XGssapiS s (gss_server_step e input)
    end)) by (intros H; exact (Hs _ _ _ _ _ I H)).
  destruct m; try discriminate Hm; unfold_steps; repeat (sim_step HZ Hp).
Qed.
