(** Lemmas for C122. *)
From Verif Require Import Bytes Types World CallbackSpec WorldFacts Simple OAuth Scram Gssapi Session Registry Apps Api
  Spec_Registry Spec_Simple Spec_Session Proof_Registry Proof_Session Proof_Evidence Proof_Flow Spec_Flow Spec_Api MonadFacts
  Base64 Spec_ScramText Spec_Scram Proof_Scram Proof_Order ChannelBindings.

Definition core (p : psession) (m : mech) : session :=
  mk_session m (ps_trace p) (ps_rng p) (sa_validation (ps_sasl p)).
Definition recore (p : psession) (s : session) : psession :=
  mk_psession (mk_sasl (sa_config (ps_sasl p)) (sa_chan (ps_sasl p)) (sa_tag (ps_sasl p)) (s_val s))
    (ps_side p) (Builtin (s_mech s)) (ps_desc p) (s_trace s) (s_rng s).

Lemma ps_run_builtin e l : forall p m, ps_mechanism p = Builtin m ->
  ps_run e p l = Some (dialogue (ps_env e p) (core p m) l, match l with [] => p | _ => recore p (after (ps_env e p) (core p m) l) end).
Proof.
  induction l as [|[i sc] l IH]; intros p m Em; [reflexivity|].
  cbn [ps_run dialogue after]. unfold ps_step. rewrite Em. fold (core p m).
  destruct (step (ps_env e p) (core p m) i sc) as [[r out] s'] eqn:Es. cbn [snd].
  match goal with |- context [ps_run e ?q l] => rewrite (IH q (s_mech s') eq_refl) end.
  change (ps_env e (mk_psession _ _ _ _ _ _)) with (ps_env e p).
  change (core (mk_psession _ _ _ _ _ _) (s_mech s')) with (mk_session (s_mech s') (s_trace s') (s_rng s') (s_val s')).
  replace (mk_session (s_mech s') (s_trace s') (s_rng s') (s_val s')) with s' by (destruct s'; reflexivity).
  destruct l; reflexivity.
Qed.

(** ** What sessions are told *)

Lemma answers_refl p : answers_rel same_answer p p.
Proof.
  induction p as [r|q v k IH|q x k IH|q k IH|q k IH]; try (constructor; auto; reflexivity).
  destruct x; constructor; auto; reflexivity.
Qed.
Lemma values_refl p : values_rel p p.
Proof. induction p as [r|t x k IH|t x k IH|t k IH]; try (constructor; auto). destruct x; constructor; auto. Qed.
Lemma events_same a b : Forall2 (event_rel same_answer) a b -> a = b.
Proof.
  induction 1 as [|x y a b H _ IH]; [reflexivity|]. subst b.
  destruct H as [ev|q v v' H]; [reflexivity|]. unfold same_answer in H. subst. reflexivity.
Qed.
Lemma events_refl a : Forall2 (event_rel same_answer) a a.
Proof. induction a; constructor; [constructor|assumption]. Qed.

Lemma produced_same e e' tr evs o : e_sd e' = e_sd e -> e_vtag e' = e_vtag e ->
  (forall tr c, e_vcb e' tr (e_sd e) c = e_vcb e tr (e_sd e) c) ->
  first_produced e tr evs o -> first_produced e' tr evs o.
Proof.
  intros Hs Ht Hv H.
  assert (P : forall tr c o, produces e tr c o -> produces e' tr c o).
  { intros tr0 c o0 (cs & x & A & B & C). exists cs, x. rewrite Hs, Ht, Hv. auto. }
  induction H as [tr|tr ev evs o Hn _ IH|tr c evs o Hp _ IH|tr c evs x Hp].
  - apply fp_nil.
  - apply fp_other; assumption.
  - apply fp_none; auto.
  - apply fp_some; auto.
Qed.

Lemma after_calls e l : forall s, calls e s (after e s l).
Proof.
  induction l as [|[i sc] l IH]; intros s; [constructor|]. cbn [after].
  destruct (step e s i sc) as [[r o] s'] eqn:E. eapply ca_step; [exact E|apply IH].
Qed.

Lemma agree_same e p c' m l : ps_mechanism p = Builtin m ->
  agree (cf_callback (sa_config (ps_sasl p))) c' (mk_sdata (get_mechname p) (ps_side p)) ->
  sa_validation (ps_sasl p) = None ->
  dialogue (ps_env e (ps_with_impl p c')) (core p m) l = dialogue (ps_env e p) (core p m) l /\
  after (ps_env e (ps_with_impl p c')) (core p m) l = after (ps_env e p) (core p m) l.
Proof.
  intros Em [Hc Hv] H0.
  set (e1 := ps_env e p). set (s := core p m).
  change (ps_env e (ps_with_impl p c')) with (set_apps e1 (ca_callback c') (ca_validate c') (e_pbkdf2 e1)).
  assert (R : apps_rel same_answer (e_sd e1) (e_cb e1) (ca_callback c') (e_vcb e1) (ca_validate c')).
  { intros tr tr' T. apply events_same in T. subst tr'. split.
    - intros x k. cbn [e_sd e1]. unfold e1, ps_env. cbn [e_sd e_cb].
      change (d_name (ps_desc p)) with (get_mechname p). rewrite Hc. apply answers_refl.
    - intros x. unfold e1, ps_env. cbn [e_sd e_vcb].
      change (d_name (ps_desc p)) with (get_mechname p). rewrite Hv. apply values_refl. }
  assert (S : session_rel same_answer s s).
  { constructor; [reflexivity|reflexivity|apply events_refl|tauto]. }
  destruct (flow_values e1 _ _ s s l R S) as [D A]. split; [exact D|].
  set (e2 := set_apps e1 (ca_callback c') (ca_validate c') (e_pbkdf2 e1)) in *.
  destruct A as [A1 A2 A3 A4]. apply events_same in A3.
  assert (V : s_val (after e1 s l) = s_val (after e2 s l)).
  { destruct (validation_first e1 s _ (s_val (after e1 s l)) H0 (after_calls e1 l s)) as (evs & N & F).
    destruct (validation_first e2 s _ (s_val (after e1 s l)) H0 (after_calls e2 l s)) as (evs2 & N2 & F2).
    assert (evs2 = evs) as -> by (unfold new_events in *; rewrite <- A3, N in N2; apply app_inv_head in N2; auto).
    symmetry. apply F2. apply (produced_same e1); [reflexivity|reflexivity| |apply F; reflexivity].
    intros tr c. unfold e2, e1, ps_env, set_apps. cbn [e_sd e_vcb].
    change (d_name (ps_desc p)) with (get_mechname p). apply Hv. }
  destruct (after e1 s l), (after e2 s l). cbn in *. congruence.
Qed.

Lemma run_told e p c' l :
  agree (cf_callback (sa_config (ps_sasl p))) c' (mk_sdata (get_mechname p) (ps_side p)) ->
  sa_validation (ps_sasl p) = None ->
  ps_run e (ps_with_impl p c') l =
  option_map (fun x => (fst x, ps_with_impl (snd x) c')) (ps_run e p l).
Proof.
  intros Ha H0. destruct (ps_mechanism p) as [m|c] eqn:Em.
  - rewrite (ps_run_builtin e l p m Em), (ps_run_builtin e l (ps_with_impl p c') m Em).
    destruct (agree_same e p c' m l Em Ha H0) as [D A].
    change (core (ps_with_impl p c') m) with (core p m). rewrite D, A. cbn [option_map fst snd].
    destruct l; reflexivity.
  - destruct l as [|[i sc] l]; [reflexivity|]. cbn [ps_run]. unfold ps_step. cbn [ps_mechanism ps_with_impl].
    rewrite Em. reflexivity.
Qed.

Lemma select_same reg cb offered f g : (forall a b, g a b = f a b) ->
  registry_select reg cb offered g = registry_select reg cb offered f.
Proof.
  intros H. unfold registry_select. cbv zeta.
  match goal with |- match fold_left _ ?x None with _ => _ end = _ => generalize x end. intros x.
  assert (F : forall acc, fold_left (sel_fold g) x acc = fold_left (sel_fold f) x acc).
  { induction x as [|y x IH]; intros acc; [reflexivity|]. cbn [fold_left].
    unfold sel_fold at 2 4. rewrite H. apply IH. }
  rewrite F. reflexivity.
Qed.

Lemma told_client e s offered p c' :
  sa_validation s = None ->
  client_start_suggested s offered = Ok p -> same_choice (cf_callback (sa_config s)) c' ->
  agree (cf_callback (sa_config s)) c' (mk_sdata (get_mechname p) SClient) ->
  client_start_suggested (with_impl s c') offered = Ok (ps_with_impl p c') /\
  forall l, ps_run e (ps_with_impl p c') l =
    option_map (fun x => (fst x, ps_with_impl (snd x) c')) (ps_run e p l).
Proof.
  intros H0 H [Hp He] Ha. unfold client_start_suggested, select_mechanism, config_select in *.
  cbn [with_impl sa_config cf_callback cf_mechanisms cf_cb].
  rewrite He, (select_same _ _ _ _ _ Hp).
  destruct (registry_select _ _ _ _) as [[i d]|x|]; try discriminate. injection H as <-. split; [reflexivity|].
  intros l. apply run_told; assumption.
Qed.

Lemma told_server e s name p c' :
  sa_validation s = None ->
  server_start_suggested s name = Ok p ->
  agree (cf_callback (sa_config s)) c' (mk_sdata (get_mechname p) SServer) ->
  server_start_suggested (with_impl s c') name = Ok (ps_with_impl p c') /\
  forall l, ps_run e (ps_with_impl p c') l =
    option_map (fun x => (fst x, ps_with_impl (snd x) c')) (ps_run e p l).
Proof.
  intros H0 H Ha. unfold server_start_suggested in *.
  cbn [with_impl sa_config cf_mechanisms].
  destruct (server_start _ _) as [[i d]|x|]; try discriminate. injection H as <-. split; [reflexivity|].
  intros l. apply run_told; assumption.
Qed.

(** ** How sessions start *)

Lemma built_inv c reg cfg : built c reg cfg -> cfg = mk_config false c reg.
Proof. intros H. destruct H; reflexivity. Qed.

Lemma client_set c reg cfg chan tag offered p : built c reg cfg ->
  client_start_suggested (sasl_with_cb cfg chan tag) offered = Ok p ->
  ps_side p = SClient /\ In (ps_desc p) reg /\ fresh_client (ps_desc p) (ps_mechanism p) /\
  candidate (ca_enable_channel_binding c) offered (ps_desc p) /\ ps_validation p = None /\
  (ca_enable_channel_binding c = false ->
   In (get_mechname p) offered /\ forall a, ps_mechanism p <> Builtin (XScramC a (Some (ScInitial Supported)))).
Proof.
  intros B H. apply built_inv in B. subst cfg.
  unfold client_start_suggested, select_mechanism, config_select in H.
  cbn [sasl_with_cb sa_config cf_callback cf_mechanisms cf_cb] in H. rewrite Bool.orb_false_r in H.
  destruct (registry_select _ _ _ _) as [[i d]|x|] eqn:E; try discriminate. injection H as <-.
  apply start_inv in E. destruct E as (A & C & F & _ & _). cbn [psession_new ps_side ps_desc ps_mechanism].
  repeat (split; [first [assumption|reflexivity]|]). intros Ef. rewrite Ef in C.
  destruct C as (n & Hn & Hc). unfold get_mechname. cbn [ps_desc psession_new].
  split.
  - destruct d as [a []| | | | | | | |]; cbn [considered] in Hc; [destruct Hc; discriminate|destruct Hc as [->|[? _]]; [exact Hn|discriminate]| | | | | | | |]; subst n; exact Hn.
  - intros a Ei. subst i. inversion F; subst; [congruence|]. cbn [considered] in Hc. destruct Hc. discriminate.
Qed.

Lemma server_set c reg cfg chan tag name p : built c reg cfg ->
  server_start_suggested (sasl_with_cb cfg chan tag) name = Ok p ->
  ps_side p = SServer /\ first_server reg name (ps_desc p) /\ fresh_server reg (ps_desc p) (ps_mechanism p) /\
  get_mechname p = name /\ ps_validation p = None.
Proof.
  intros B H. apply built_inv in B. subst cfg. unfold server_start_suggested in H.
  cbn [sasl_with_cb sa_config cf_mechanisms] in H.
  destruct (server_start reg name) as [[i d]|x|] eqn:E; try discriminate. injection H as <-.
  apply (proj1 (server_exact reg name)) in E. destruct E as (A & F).
  repeat (split; [first [assumption|reflexivity]|]). split; [|reflexivity].
  unfold get_mechname. cbn [ps_desc psession_new]. clear F. unfold first_server in A. firstorder.
Qed.

Lemma one_first s offered s' name p q : 
  client_start_suggested s offered = Ok p -> server_start_suggested s' name = Ok q ->
  is_builtin (ps_desc p) -> is_builtin (ps_desc q) -> get_mechname q = get_mechname p ->
  ps_first q = negb (ps_first p).
Proof.
  intros H H' Bp Bq En. apply (names_distinct _ _ Bq Bp) in En.
  unfold client_start_suggested in H. destruct (select_mechanism _ _) as [[i d]|x|]; try discriminate. injection H as <-.
  unfold server_start_suggested in H'. destruct (server_start _ _) as [[j d']|x|]; try discriminate. injection H' as <-.
  cbn in En. subst d'. unfold ps_first, are_we_first. cbn. destruct (d_first d); reflexivity.
Qed.

(** ** Applications that do nothing *)

Lemma produces_nothing e tr evs x : (forall tr c, e_vcb e tr (e_sd e) c = VRet None) ->
  ~ first_produced e tr evs (Some x).
Proof.
  intros Hv H. apply first_produced_in in H. destruct H as (a & c & b & _ & (cs & y & F & _ & Eo)).
  rewrite Hv in F. inversion F; subst. discriminate.
Qed.

Lemma no_value e p l ds q :
  validates_nothing (cf_callback (sa_config (ps_sasl p))) -> ps_validation p = None ->
  ps_run e p l = Some (ds, q) -> ps_validation q = None.
Proof.
  intros Hv H0 H. destruct (ps_mechanism p) as [m|c] eqn:Em.
  - rewrite (ps_run_builtin e l p m Em) in H. injection H as <- <-. destruct l as [|i l]; [exact H0|].
    unfold ps_validation. cbn [recore ps_sasl sa_validation].
    destruct (validation_first (ps_env e p) (core p m) _ (s_val (after (ps_env e p) (core p m) (i :: l))) H0 (after_calls _ (i :: l) _)) as (evs & N & F).
    unfold validation in F; cbn [fst] in F.
    destruct (s_val (after _ _ _)) as [x|]; [|reflexivity]. exfalso.
    apply (produces_nothing (ps_env e p) (s_trace (core p m)) evs x); [|apply F; reflexivity].
    intros tr c. apply Hv.
  - destruct l as [|[i sc] l]; [injection H as <- <-; exact H0|]. cbn [ps_run] in H. unfold ps_step in H.
    rewrite Em in H. discriminate.
Qed.

Lemma client_no_value e s offered p l ds q : sa_validation s = None ->
  client_start_suggested s offered = Ok p -> ps_run e p l = Some (ds, q) -> ps_validation q = None.
Proof.
  intros H0 Hs H. unfold client_start_suggested, select_mechanism, config_select in Hs.
  destruct (registry_select _ _ _ _) as [[i d]|x|] eqn:E; try discriminate. injection Hs as <-.
  destruct i as [m|c].
  - rewrite (ps_run_builtin e l (psession_new s SClient (Builtin m) d) m eq_refl) in H. injection H as <- <-. destruct l as [|i l]; [exact H0|].
    unfold ps_validation. cbn [recore ps_sasl sa_validation].
    set (p := psession_new s SClient (Builtin m) d) in *. set (l' := i :: l) in *.
    destruct (validation_first (ps_env e p) (core p m) _ (s_val (after (ps_env e p) (core p m) l')) H0 (after_calls _ l' _)) as (evs & N & F).
    assert (V : validations evs = []).
    { eapply (clients_never_validate (ps_env e p) _ _ _ _ d (core p m)); [exact E|apply (after_calls _ l')|exact N]. }
    unfold validation in F; cbn [fst] in F.
    destruct (s_val (after _ _ _)) as [x|]; [|reflexivity]. exfalso.
    destruct (first_produced_in _ _ _ _ (proj2 F eq_refl)) as (a & c & b & -> & _).
    rewrite validations_app in V. cbn in V. destruct (validations a); discriminate.
  - destruct l as [|[i sc] l]; [injection H as <- <-; exact H0|]. discriminate.
Qed.

(** *** Nothing to say *)

Open Scope m_scope.
Section Nothing.
Variable e : env.
Hypothesis Hcb : forall tr sd x k, e_cb e tr sd x k = CRet None.

Lemma maybe_nothing {L G} q c (f : pval q -> M L G) l w :
  maybe_need_with e q c f l w = (Ok None, l, add_event (EvRequest q c) w).
Proof. unfold maybe_need_with. rewrite Hcb. reflexivity. Qed.
Lemma need_nothing {L G} q c (f : pval q -> M L G) l w :
  need_with e q c f l w = (Err (ECbNoCallback q), l, add_event (EvRequest q c) w).
Proof. unfold need_with, bind. rewrite maybe_nothing. reflexivity. Qed.

(** Clients that are not getting anywhere. *)
Definition stuck (m : mech) : Prop :=
  match m with
  | XPlainC | XLoginC LcAuthid | XXOAuth2C OcInitial | XOAuthBearerC OcInitial
  | XScramC _ (Some (ScInitial _)) | XScramC _ None | XGssapiC GcInitial | XGssapiC GcErrored => True
  | _ => False
  end.
Definition content (m : mech) : Prop :=
  match m with XExternalC | XAnonymousC => True | _ => False end.

(** Computations that do not succeed. *)
Definition fails {L A} (m : M L A) : Prop := forall l w r l' w', m l w = (r, l', w') -> forall a, r <> Ok a.
Lemma fails_need {L G} q c (f : pval q -> M L G) : fails (need_with e q c f).
Proof. intros l w r l' w' H a. rewrite need_nothing in H. congruence. Qed.
Lemma fails_first {L A B} (m : M L A) (f : A -> M L B) : fails m -> fails (bind m f).
Proof.
  intros F l w r l' w' H b. unfold bind in H. destruct (m l w) as [[[a|x|] l1] w1] eqn:E; [|congruence|congruence].
  exfalso. eapply F; [exact E|reflexivity].
Qed.
Lemma fails_then {L A B} (m : M L A) (f : A -> M L B) : (forall a, fails (f a)) -> fails (bind m f).
Proof.
  intros F l w r l' w' H b. unfold bind in H. destruct (m l w) as [[[a|x|] l1] w1] eqn:E; [|congruence|congruence].
  eapply F; exact H.
Qed.
Lemma fails_locally {L L' A} l0 (m : M L' A) : fails m -> fails (@locally L L' A l0 m).
Proof.
  intros F l w r l' w' H [a b]. unfold locally in H. destruct (m l0 w) as [[[x|x|] l1] w1] eqn:E; [|congruence|congruence].
  exfalso. eapply F; [exact E|reflexivity].
Qed.

Lemma fails_keeps {L A B} (m : M L A) (f : A -> M L B) l w r l' w' :
  fails m -> bind m f l w = (r, l', w') -> (exists r1, m l w = (r1, l', w') /\ forall a, r1 <> Ok a) /\ forall b, r <> Ok b.
Proof.
  intros F H. unfold bind in H. destruct (m l w) as [[[a|x|] l1] w1] eqn:E.
  - exfalso. eapply F; [exact E|reflexivity].
  - injection H as <- <- <-. split; [exists (Err x); split; [reflexivity|congruence]|congruence].
  - injection H as <- <- <-. split; [exists Panic; split; [reflexivity|congruence]|congruence].
Qed.
Lemma need_keeps {L G B} q c (f : pval q -> M L G) (k : G -> M L B) l w r l' w' :
  bind (need_with e q c f) k l w = (r, l', w') -> l' = l /\ forall b, r <> Ok b.
Proof. unfold bind. rewrite need_nothing. intros [= <- <- <-]. split; congruence. Qed.
Lemma write_keeps {L B} x (k : unit -> M L B) l w r l' w' (P : Prop) :
  (forall w0, k tt l w0 = (r, l', w') -> P) -> (l' = l -> (forall b, r <> Ok b) -> P) ->
  bind (write_all x) k l w = (r, l', w') -> P.
Proof.
  intros H1 H2 H. unfold bind in H. destruct (write_all x l w) as [[[a|y|] l1] w1] eqn:E.
  - assert (l1 = l) as -> by (unfold write_all in E; destruct (write_all_fuel _ _ _); congruence).
    destruct a. eapply H1; exact H.
  - assert (l1 = l) as -> by (unfold write_all in E; destruct (write_all_fuel _ _ _); congruence).
    injection H as <- <- <-. apply H2; [reflexivity|congruence].
  - assert (l1 = l) as -> by (unfold write_all in E; destruct (write_all_fuel _ _ _); congruence).
    injection H as <- <- <-. apply H2; [reflexivity|congruence].
Qed.

Lemma step_stuck m input w r m' w' : stuck m -> mech_step e input m w = (r, m', w') ->
  stuck m' /\ forall st, r <> Ok st.
Proof.
  intros Hm H. unfold mech_step, bind at 1, getl in H.
  destruct m as [| |s| | | | | |s| |s| |a s| |s|]; try contradiction.
  - unfold on in H. destruct (plain_client_step e input tt w) as [[r1 []] w1] eqn:E. injection H as <- <- <-.
    split; [exact I|]. intros st Er. subst r1.
    assert (F : fails (plain_client_step e input)); [|apply (F _ _ _ _ _ E st); reflexivity].
    unfold plain_client_step. apply fails_then; intros _. apply fails_then; intros _. apply fails_first. apply fails_need.
  - destruct s; try contradiction. unfold on in H.
    destruct (login_client_step e input LcAuthid w) as [[r1 l1] w1] eqn:E. injection H as <- <- <-.
    unfold login_client_step, bind at 1, getl in E. apply need_keeps in E. destruct E as [-> E]. split; [exact I|exact E].
  - destruct s; try contradiction. unfold on in H.
    destruct (xoauth2_client_step e input OcInitial w) as [[r1 l1] w1] eqn:E. injection H as <- <- <-.
    unfold xoauth2_client_step, bind at 1, getl in E. apply need_keeps in E. destruct E as [-> E]. split; [exact I|exact E].
  - destruct s; try contradiction. unfold on in H.
    destruct (oauthbearer_client_step e input OcInitial w) as [[r1 l1] w1] eqn:E. injection H as <- <- <-.
    unfold oauthbearer_client_step, bind at 1, getl in E. revert E. apply write_keeps; [|intros -> E; split; [exact I|exact E]].
    intros w0 E. unfold bind at 1 in E. rewrite maybe_nothing in E. revert E.
    apply write_keeps; [|intros -> E; split; [exact I|exact E]].
    intros w2 E. unfold bind at 1 in E. rewrite maybe_nothing in E. apply need_keeps in E.
    destruct E as [-> E]. split; [exact I|exact E].
  - unfold on in H. destruct (scram_client_step e a input s w) as [[r1 l1] w1] eqn:E. injection H as <- <- <-.
    unfold scram_client_step in E. unfold bind at 1 2, getl, setl in E.
    destruct s as [[plus| |]|]; try contradiction.
    + assert (F : fails (send_client_first e plus)).
      { unfold send_client_first. do 4 (apply fails_then; intros _). apply fails_first. apply fails_need. }
      apply (fails_locally (L := option scram_cst) ([], None)) in F.
      apply fails_keeps in E; [|exact F]. 
      destruct E as ((r2 & E & N) & R). unfold locally in E.
      destruct (send_client_first e plus ([], None) w) as [[[x|x|] l2] w2] eqn:E2;
        injection E as <- <- <-; [exfalso; eapply N; reflexivity| |]; (split; [exact I|exact R]).
    + unfold panic in E. injection E as <- <- <-. split; [exact I|congruence].
  - unfold on in H. destruct (gss_client_step e input s w) as [[r1 l1] w1] eqn:E. injection H as <- <- <-.
    unfold gss_client_step in E. unfold bind at 1 2, getl, setl in E.
    destruct s; try contradiction.
    + apply need_keeps in E. destruct E as [-> E]. split; [exact I|exact E].
    + cbn in E. unfold fail in E. injection E as <- <- <-. split; [exact I|congruence].
Qed.

Lemma step_content m input w r m' w' : content m -> mech_step e input m w = (r, m', w') ->
  m' = m /\ w_out w' = w_out w /\ r = Ok (Finished true).
Proof.
  intros Hm H. unfold mech_step, bind at 1, getl in H. destruct m; try contradiction;
  unfold on, external_client_step, anonymous_client_step, bind in H; rewrite maybe_nothing in H;
  injection H as <- <- <-; auto.
Qed.

Lemma dialogue_stuck l : forall s, stuck (s_mech s) ->
  Forall (fun x => forall st, fst x <> Ok st) (dialogue e s l).
Proof.
  induction l as [|[i sc] l IH]; intros s Hs; cbn [dialogue]; [constructor|].
  unfold step, run. destruct (mech_step e i (s_mech s) _) as [[r m'] w'] eqn:E.
  apply step_stuck in E; [|exact Hs]. destruct E as [Hm Hr]. constructor; [exact Hr|]. apply IH. exact Hm.
Qed.
Lemma dialogue_content l : forall s, content (s_mech s) ->
  Forall (fun x => x = (Ok (Finished true), [])) (dialogue e s l).
Proof.
  induction l as [|[i sc] l IH]; intros s Hs; cbn [dialogue]; [constructor|].
  unfold step, run. destruct (mech_step e i (s_mech s) _) as [[r m'] w'] eqn:E.
  apply step_content in E; [|exact Hs]. destruct E as (-> & Ho & ->). constructor; [rewrite Ho; reflexivity|].
  apply IH. exact Hs.
Qed.
End Nothing.

Lemma nothing_said e s offered p l ds q :
  provides_nothing (cf_callback (sa_config s)) -> client_start_suggested s offered = Ok p ->
  ps_run e p l = Some (ds, q) ->
  (get_mechname p = lit "EXTERNAL" \/ get_mechname p = lit "ANONYMOUS" ->
   Forall (fun x => x = (Ok (Finished true), [])) ds) /\
  (get_mechname p <> lit "EXTERNAL" -> get_mechname p <> lit "ANONYMOUS" ->
   Forall (fun x => forall st, fst x <> Ok st) ds).
Proof.
  intros Hc Hs H. unfold client_start_suggested, select_mechanism, config_select in Hs.
  destruct (registry_select _ _ _ _) as [[i d]|x|] eqn:E; try discriminate. injection Hs as <-.
  apply start_inv in E. destruct E as (_ & _ & F & _ & _).
  destruct i as [m|c].
  - rewrite (ps_run_builtin e l (psession_new s SClient (Builtin m) d) m eq_refl) in H. injection H as <- <-.
    set (p := psession_new s SClient (Builtin m) d) in *.
    assert (Hcb : forall tr sd x k, e_cb (ps_env e p) tr sd x k = CRet None) by (intros; apply Hc).
    unfold get_mechname, p. cbn [psession_new ps_desc].
    inversion F; subst; (split; [intros N|intros N1 N2]);
      try (apply (dialogue_stuck _ Hcb); exact I); try (apply (dialogue_content _ Hcb); exact I);
      try (exfalso; destruct N as [N|N]; revert N; clear; try destruct a; vm_compute; discriminate);
      exfalso; first [apply N1; reflexivity|apply N2; reflexivity].
  - destruct l as [|[i sc] l]; [injection H as <- <-|discriminate]. split; intros; constructor.
Qed.

(** ** Validation types and channel bindings *)

Lemma value_from e p l ds q x : ps_validation p = None -> ps_run e p l = Some (ds, q) ->
  ps_validation q = Some x ->
  exists tr c cs y,
    vfollows (ca_validate (cf_callback (sa_config (ps_sasl p))) tr
                (mk_sdata (get_mechname p) (ps_side p)) c) cs y /\
    first_final (sa_tag (ps_sasl p)) cs = Some x.
Proof.
  intros H0 H Hx. destruct (ps_mechanism p) as [m|c] eqn:Em.
  - rewrite (ps_run_builtin e l p m Em) in H. injection H as <- <-. destruct l as [|i l]; [congruence|].
    unfold ps_validation in Hx. cbn [recore ps_sasl sa_validation] in Hx.
    destruct (validation_first (ps_env e p) (core p m) _ (Some x) H0 (after_calls _ (i :: l) _)) as (evs & N & F).
    apply (proj2 F), first_produced_in in Hx. destruct Hx as (a & c & b & _ & (cs & y & A & _ & B)).
    exists (s_trace (core p m) ++ a), c, cs, y. split; [exact A|symmetry; exact B].
  - destruct l as [|[i sc] l]; [injection H as <- <-; congruence|]. cbn [ps_run] in H. unfold ps_step in H.
    rewrite Em in H. discriminate.
Qed.

Lemma bound_to e p a input script st out p' :
  ps_mechanism p = Builtin (XScramC a (Some (ScInitial Supported))) ->
  polite (ps_env e p) -> no_zero script -> ps_step e p input script = Some (Ok st, out, p') ->
  exists name data evs rest hdr nonce user,
    ps_trace p' = ps_trace p ++ evs /\ out = lit "p=" ++ name ++ lit "," ++ rest /\
    ps_mechanism p' = Builtin (XScramC a (Some (ScClientFirst (mk_wsf (encode (hdr ++ data)) nonce user)))) /\
    (sa_chan (ps_sasl p) name = Some data \/
     (sa_chan (ps_sasl p) name = None /\ answers PChannelBindings evs = [data])).
Proof.
  intros Em Hp Hz H. unfold ps_step in H. rewrite Em in H.
  destruct (step (ps_env e p) _ input script) as [[r o] s'] eqn:E. injection H as -> <- <-.
  apply (client_first_polite _ _ a Supported) in E; [|reflexivity|exact Hp|exact Hz].
  destruct E as (evs & f & z & zesc & data & user & uesc & N & _ & Ho & W & _ & _ & _ & _ & _ & _ & _ & [name ->] & [S _]).
  eexists name, data, evs, _, _, _, _. split; [exact N|]. split; [|split; [|exact S]].
  - rewrite Ho. unfold gs2_text, flag_text. rewrite <- !app_assoc. reflexivity.
  - cbn [ps_mechanism]. unfold client_waits in W. rewrite W. reflexivity.
Qed.

Lemma bound_new e cfg tag offered p a input script st out p' :
  client_start_suggested (sasl_new cfg tag) offered = Ok p ->
  ps_mechanism p = Builtin (XScramC a (Some (ScInitial Supported))) ->
  polite (ps_env e p) -> no_zero script -> ps_step e p input script = Some (Ok st, out, p') ->
  exists data evs, ps_trace p' = ps_trace p ++ evs /\ answers PChannelBindings evs = [data].
Proof.
  intros Hs Em Hp Hz H. destruct (bound_to _ _ _ _ _ _ _ _ Em Hp Hz H) as (name & data & evs & _ & _ & _ & _ & N & _ & _ & S).
  exists data, evs. split; [exact N|].
  assert (Ep : ps_sasl p = sasl_new cfg tag).
  { unfold client_start_suggested in Hs. destruct (select_mechanism _ _) as [[i d]|x|]; try discriminate.
    injection Hs as <-. reflexivity. }
  rewrite Ep in S. destruct S as [S|[_ S]]; [discriminate|exact S].
Qed.
