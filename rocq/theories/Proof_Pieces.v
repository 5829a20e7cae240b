(** Writers that take their time (C119). *)
From Coq Require Import Lia.
From Verif Require Import Bytes BytesFacts Types World CallbackSpec Spec_Basic WorldFacts MonadFacts
  Simple OAuth Scram Gssapi Session Frame Sim Spec_Session Proof_Basic Proof_Session Proof_Step64 Spec_Flow Spec_Pieces.
Open Scope m_scope.

(** * With a writer that takes something or is interrupted, a step that writes by [write_all] does
    what it does with a perfect one. *)
Definition steady {L A} (m : M L A) : Prop := forall l w r l' w', patient (w_script w) ->
  m l w = (r, l', w') -> patient (w_script w') /\ m l (perfect w) = (r, l', perfect w').

Lemma steady_pure {L A} (g : L -> res serr A * L) (m : M L A) :
  (forall l w, m l w = (fst (g l), snd (g l), w)) -> steady m.
Proof.
  intros H l w r l' w' W E. rewrite H in E. injection E as <- <- <-. split; [exact W|apply H].
Qed.
Lemma steady_ret {L A} (a : A) : steady (@ret L A a).
Proof. apply (steady_pure (fun l => (Ok a, l))). reflexivity. Qed.
Lemma steady_fail {L A} x : steady (@fail L A x).
Proof. apply (steady_pure (fun l => (Err x, l))). reflexivity. Qed.
Lemma steady_panic {L A} : steady (@panic L A).
Proof. apply (steady_pure (fun l => (Panic, l))). reflexivity. Qed.
Lemma steady_getl {L} : steady (@getl L).
Proof. apply (steady_pure (fun l => (Ok l, l))). reflexivity. Qed.
Lemma steady_setl {L} (x : L) : steady (setl x).
Proof. apply (steady_pure (fun l => (Ok tt, x))). reflexivity. Qed.
Lemma steady_of_res {L A} (x : res serr A) : steady (@of_res L A x).
Proof. apply (steady_pure (fun l => (x, l))). reflexivity. Qed.
Lemma steady_bind {L A B} (m : M L A) (f : A -> M L B) :
  steady m -> (forall a, steady (f a)) -> steady (bind m f).
Proof.
  intros Hm Hf l w r l' w' W H. unfold bind in *.
  destruct (m l w) as [[r1 l1] w1] eqn:E. destruct (Hm _ _ _ _ _ W E) as [W1 Hp]. rewrite Hp.
  destruct r1 as [a|x|]; [apply Hf; assumption|injection H as <- <- <-; auto..].
Qed.
Lemma steady_locally {L L' A} (l0 : L') (m : M L' A) : steady m -> steady (@locally L L' A l0 m).
Proof.
  intros Hm l w r l' w' W H. unfold locally in *.
  destruct (m l0 w) as [[r1 l1] w1] eqn:E. destruct (Hm _ _ _ _ _ W E) as [W1 Hp]. rewrite Hp.
  destruct r1; injection H as <- <- <-; auto.
Qed.
Lemma steady_on {L A} (wrap : L -> mech) l0 (m : M L A) : steady m -> steady (on wrap l0 m).
Proof.
  intros Hm l w r l' w' W H. unfold on in *.
  destruct (m l0 w) as [[r1 l1] w1] eqn:E. injection H as <- <- <-.
  destruct (Hm _ _ _ _ _ W E) as [W1 Hp]. rewrite Hp. auto.
Qed.
Lemma steady_log {L} ev : steady (@log L ev).
Proof. intros l w r l' w' W [= <- <- <-]. split; [exact W|reflexivity]. Qed.
Lemma steady_draws {L} e n : steady (@draws L e n).
Proof.
  induction n as [|n IH]; cbn [draws]; [apply steady_ret|].
  apply steady_bind; [|intros x; apply steady_bind; [exact IH|intros; apply steady_ret]].
  intros l w r l' w' W [= <- <- <-]. split; [exact W|reflexivity].
Qed.
Lemma steady_validate {L} e c : steady (@validate L e c).
Proof.
  intros l w r l' w' W H. unfold validate in *. simpl.
  destruct (run_validate _ _ _) as [[x|] slot]; injection H as <- <- <-; (split; [exact W|reflexivity]).
Qed.
Lemma steady_action {L} e q c v : steady (@action L e q c v).
Proof.
  intros l w r l' w' W H. unfold action in *. simpl.
  destruct (run_action _ _ _ _) as [[x slot] tr].
  destruct (mask_early x); [|destruct slot]; injection H as <- <- <-; (split; [exact W|reflexivity]).
Qed.
Lemma steady_ignore {L A} (m : M L A) : steady m -> steady (ignore m).
Proof.
  intros Hm l w r l' w' W H. unfold ignore in *.
  destruct (m l w) as [[r1 l1] w1] eqn:E. destruct (Hm _ _ _ _ _ W E) as [W1 Hp]. rewrite Hp.
  destruct r1; injection H as <- <- <-; auto.
Qed.
Lemma patient_left s s' : script_left s s' -> patient s -> patient s'.
Proof. intros [p ->] H. apply Forall_app in H. apply H. Qed.
Lemma write_all_fuel_patient fuel : forall data w, patient (w_script w) -> length (w_script w) < fuel ->
  exists w', write_all_fuel fuel data w = (Ok tt, w').
Proof.
  induction fuel as [|f IH]; intros data w W Hf; [lia|].
  destruct (w_script w) as [|x s] eqn:Es; [eexists; apply write_all_fuel_full, Es|].
  destruct data as [|b data]; [eexists; reflexivity|]. cbn [write_all_fuel]. unfold write1. rewrite Es.
  inversion W as [|? ? [->|[n ->]] Ws]; subst.
  - apply IH; cbn [w_script]; [exact Ws|simpl in Hf; lia].
  - cbn [Nat.min length]. apply IH; cbn [w_script]; [exact Ws|simpl in Hf; lia].
Qed.
Lemma steady_write_all {L} data : steady (@write_all L data).
Proof.
  intros l w r l' w' W H. pose proof H as H0. apply write_all_results in H.
  unfold write_all in H0. destruct (write_all_fuel_patient (S (length (w_script w))) data w W) as [w1 E]; [lia|].
  rewrite E in H0. injection H0 as <- <- <-.
  destruct H as [_ [[_ Hw]|[x [p [q [E1 _]]]]]]; [|discriminate].
  split; [eapply patient_left; [apply Hw|exact W]|]. rewrite write_all_full by reflexivity.
  rewrite (perfect_wrote _ _ _ Hw). reflexivity.
Qed.
Lemma steady_write_json {L} e x : steady (@write_json L e x).
Proof.
  intros l w r l' w' W H. unfold write_json in *.
  destruct (write_all (e_json_to e x) l w) as [[r1 l1] w1] eqn:E.
  destruct (steady_write_all _ _ _ _ _ _ W E) as [W1 Hp]. rewrite Hp.
  destruct r1; injection H as <- <- <-; auto.
Qed.

Lemma cr_satisfy_steady {L G} q (f : pval q -> M L G) st v l w r st' l' w' :
  (forall v, steady (f v)) -> patient (w_script w) -> cr_satisfy q f st v l w = (r, st', l', w') ->
  patient (w_script w') /\ cr_satisfy q f st v l (perfect w) = (r, st', l', perfect w').
Proof.
  intros Hf W H. unfold cr_satisfy in *. destruct st; try (injection H as <- <- <- <-; auto).
  assert (S : steady (bind (log (EvAnswer q v)) (fun _ => f v))).
  { apply steady_bind; [apply steady_log|]. intros _. apply Hf. }
  destruct (bind (log (EvAnswer q v)) (fun _ => f v) l w) as [[r1 l1] w1] eqn:E.
  destruct (S _ _ _ _ _ W E) as [W1 Hp]. rewrite Hp.
  destruct r1; injection H as <- <- <- <-; auto.
Qed.
Lemma run_satisfy_steady {L G} q (f : pval q -> M L G) p : (forall v, steady (f v)) ->
  forall st l w r st' l' w', patient (w_script w) -> run_satisfy q f p st l w = (r, st', l', w') ->
    patient (w_script w') /\ run_satisfy q f p st l (perfect w) = (r, st', l', perfect w').
Proof.
  intros Hf. induction p as [x|p v k IH|p c k IH|p k IH|p k IH]; intros st l w r st' l' w' W H;
    cbn [run_satisfy] in H |- *.
  - injection H as <- <- <- <-. auto.
  - destruct (castp v) as [v'|]; [|apply IH; assumption].
    destruct (cr_satisfy q f st v' l w) as [[[r1 st1] l1] w1] eqn:E.
    destruct (cr_satisfy_steady _ _ _ _ _ _ _ _ _ _ Hf W E) as [W1 Hp]. rewrite Hp.
    destruct r1; [apply IH; assumption..|injection H as <- <- <- <-; auto].
  - destruct (prop_eq_dec p q) as [Epq|]; [|apply IH; assumption].
    cbn zeta in *.
    change (add_event (EvClosure p) (perfect w)) with (perfect (add_event (EvClosure p) w)).
    assert (W0 : patient (w_script (add_event (EvClosure p) w))) by exact W.
    destruct c as [x|v]; [apply IH; assumption|].
    destruct (castp v) as [v'|]; [|apply IH; assumption].
    destruct (cr_satisfy q f st v' l (add_event (EvClosure p) w)) as [[[r1 st1] l1] w1] eqn:E.
    destruct (cr_satisfy_steady _ _ _ _ _ _ _ _ _ _ Hf W0 E) as [W1 Hp]. rewrite Hp.
    destruct r1; [apply IH; assumption..|injection H as <- <- <- <-; auto].
  - apply IH; auto.
  - apply IH; auto.
Qed.
Lemma steady_maybe_need_with {L G} e q c (f : pval q -> M L G) :
  (forall v, steady (f v)) -> steady (maybe_need_with e q c f).
Proof.
  intros Hf l w r l' w' W H. unfold maybe_need_with in *.
  change (add_event (EvRequest q c) (perfect w)) with (perfect (add_event (EvRequest q c) w)).
  simpl w_trace.
  destruct (run_satisfy q f (e_cb e (w_trace w) (e_sd e) c (RSatisfy q)) CrOpen l
     (add_event (EvRequest q c) w)) as [[[r1 st] l1] w1] eqn:E.
  destruct (run_satisfy_steady q f _ Hf _ _ (add_event (EvRequest q c) w) _ _ _ _ W E) as [W1 Hp]. rewrite Hp.
  destruct r1 as [x|x|]; [destruct (mask_early x) as [[]|]|..]; injection H as <- <- <-; auto.
Qed.
Lemma steady_need_with {L G} e q c (f : pval q -> M L G) :
  (forall v, steady (f v)) -> steady (need_with e q c f).
Proof.
  intros Hf. unfold need_with. apply steady_bind; [apply steady_maybe_need_with; assumption|].
  intros [g|]; [apply steady_ret|apply steady_fail].
Qed.
Lemma steady_maybe_need_cb_data {L G} e name c (f : bytes -> M L G) :
  (forall v, steady (f v)) -> steady (maybe_need_cb_data e name c f).
Proof.
  intros Hf. unfold maybe_need_cb_data. apply steady_bind; [apply steady_log|]. intros _.
  destruct (e_chan e name).
  - apply steady_bind; [apply Hf|]. intros; apply steady_ret.
  - apply steady_maybe_need_with; assumption.
Qed.
Lemma steady_need_cb_data {L G} e name c (f : bytes -> M L G) :
  (forall v, steady (f v)) -> steady (need_cb_data e name c f).
Proof.
  intros Hf. unfold need_cb_data. apply steady_bind; [apply steady_maybe_need_cb_data; assumption|].
  intros [g|]; [apply steady_ret|apply steady_fail].
Qed.

Ltac steady_step :=
  lazymatch goal with
  | |- steady (ret _) => apply steady_ret
  | |- steady (fail _) => apply steady_fail
  | |- steady panic => apply steady_panic
  | |- steady getl => apply steady_getl
  | |- steady (setl _) => apply steady_setl
  | |- steady (of_res _) => apply steady_of_res
  | |- steady (bind _ _) => apply steady_bind; [|intros ?]
  | |- steady (locally _ _) => apply steady_locally
  | |- steady (ignore _) => apply steady_ignore
  | |- steady (on _ _ _) => apply steady_on
  | |- steady (need_with _ _ _ _) => apply steady_need_with; intros ?
  | |- steady (maybe_need_with _ _ _ _) => apply steady_maybe_need_with; intros ?
  | |- steady (need_cb_data _ _ _ _) => apply steady_need_cb_data; intros ?
  | |- steady (maybe_need_cb_data _ _ _ _) => apply steady_maybe_need_cb_data; intros ?
  | |- steady (action _ _ _ _) => apply steady_action
  | |- steady (validate _ _) => apply steady_validate
  | |- steady (write_all _) => apply steady_write_all
  | |- steady (write_json _ _) => apply steady_write_json
  | |- steady (draws _ _) => apply steady_draws
  | |- steady (log _) => apply steady_log
  | |- steady (match ?x with _ => _ end) => destruct x
  | |- steady (scram_parse _) => unfold scram_parse
  | |- steady (scram_proto _) => unfold scram_proto
  | |- steady (exact _ _) => unfold exact
  | |- steady (gss_try _) => unfold gss_try
  | |- steady gss_err => unfold gss_err
  end.
Lemma step_steady e input m w r l' w' : plain_writes m = true -> patient (w_script w) ->
  mech_step e input m w = (r, l', w') -> mech_step e input m (perfect w) = (r, l', perfect w').
Proof.
  intros P W. unfold mech_step, bind, getl.
  enough (S : steady (match m with
    | XPlainC => on (fun _ => XPlainC) tt (plain_client_step e input)
    | XPlainS => on (fun _ => XPlainS) tt (plain_server_step e input)
    | XLoginC s => on XLoginC s (login_client_step e input)
    | XLoginS s => on XLoginS s (login_server_step e input)
    | XExternalC => on (fun _ => XExternalC) tt (external_client_step e input)
    | XExternalS => on (fun _ => XExternalS) tt (external_server_step e input)
    | XAnonymousC => on (fun _ => XAnonymousC) tt (anonymous_client_step e input)
    | XAnonymousS => on (fun _ => XAnonymousS) tt (anonymous_server_step e input)
    | XXOAuth2C s => on XXOAuth2C s (xoauth2_client_step e input)
    | XXOAuth2S s => on XXOAuth2S s (xoauth2_server_step e input)
    | XOAuthBearerC s => on XOAuthBearerC s (oauthbearer_client_step e input)
    | XOAuthBearerS s => on XOAuthBearerS s (oauthbearer_server_step e input)
    | XScramC a s => on (XScramC a) s (scram_client_step e a input)
    | XScramS a s => on (XScramS a) s (scram_server_step e a input)
    | XGssapiC s => on XGssapiC s (gss_client_step e input)
    | XGssapiS s => on XGssapiS s (gss_server_step e input)
    end)) by (intros H; exact (proj2 (S _ _ _ _ _ W H))).
  destruct m; try discriminate P; unfold_steps; repeat steady_step.
Qed.

(** * Steps and dialogues *)
Lemma run_perfect (e : env) (m : M mech state) s script r l w :
  m (s_mech s) (mk_world [] script (s_trace s) (s_rng s) (s_val s)) = (r, l, w) ->
  m (s_mech s) (perfect (mk_world [] script (s_trace s) (s_rng s) (s_val s))) = (r, l, perfect w) ->
  run m s script = run m s [].
Proof. unfold run. unfold perfect at 1. cbn [w_out w_trace w_rng w_val]. intros -> ->. reflexivity. Qed.
Theorem step_pieces e s input script : willing script -> step e s input script = step e s input [].
Proof.
  intros W. unfold step.
  destruct (mech_step e input (s_mech s) (mk_world [] script (s_trace s) (s_rng s) (s_val s))) as [[r l] w] eqn:E.
  apply (run_perfect e _ _ _ _ _ _ E). refine (proj2 (step_smooth e input _ (mk_world [] script _ _ _) _ _ _ W E)).
Qed.
Theorem step_interrupted e s input script : plain_writes (s_mech s) = true -> patient script ->
  step e s input script = step e s input [].
Proof.
  intros P W. unfold step.
  destruct (mech_step e input (s_mech s) (mk_world [] script (s_trace s) (s_rng s) (s_val s))) as [[r l] w] eqn:E.
  apply (run_perfect e _ _ _ _ _ _ E). refine (step_steady e input _ (mk_world [] script _ _ _) _ _ _ P W E).
Qed.
Theorem dialogue_pieces e l : Forall (fun p => willing (snd p)) l -> forall s,
  dialogue e s l = dialogue e s (undisturbed l) /\ after e s l = after e s (undisturbed l).
Proof.
  induction 1 as [|[input script] l W F IH]; intros s; [split; reflexivity|].
  cbn [dialogue after undisturbed map fst snd]. cbn [snd] in W. rewrite (step_pieces e s input script W).
  destruct (step e s input []) as [[r out] s']. cbn [snd]. destruct (IH s') as [-> ->]. split; reflexivity.
Qed.
Lemma mech_step_writes e input m w r m' w' :
  mech_step e input m w = (r, m', w') -> plain_writes m' = plain_writes m.
Proof.
  unfold mech_step, bind, getl. destruct m; intros H; apply on_eq in H;
    destruct H as [l' [_ ->]]; reflexivity.
Qed.
Lemma step_writes e s input script : plain_writes (s_mech (snd (step e s input script))) = plain_writes (s_mech s).
Proof.
  unfold step, run.
  destruct (mech_step e input (s_mech s) (mk_world [] script (s_trace s) (s_rng s) (s_val s))) as [[r l] w] eqn:E.
  exact (mech_step_writes _ _ _ _ _ _ _ E).
Qed.
Theorem dialogue_interrupted e l : Forall (fun p => patient (snd p)) l -> forall s,
  plain_writes (s_mech s) = true ->
  dialogue e s l = dialogue e s (undisturbed l) /\ after e s l = after e s (undisturbed l).
Proof.
  induction 1 as [|[input script] l W F IH]; intros s P; [split; reflexivity|].
  cbn [dialogue after undisturbed map fst snd]. cbn [snd] in W.
  pose proof (step_writes e s input []) as Q. rewrite (step_interrupted e s input script P W).
  destruct (step e s input []) as [[r out] s']. cbn [snd] in Q |- *.
  destruct (IH s') as [-> ->]; [congruence|]. split; reflexivity.
Qed.
