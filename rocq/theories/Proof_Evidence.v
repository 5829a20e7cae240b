(** Lemmas about what precedes validation. *)
From Coq Require Import Lia.
From Verif Require Import Bytes Base64 Utf8 Types World CallbackSpec WorldFacts MonadFacts Num Simple OAuth ScramParser Scram
  Gssapi Session Registry Frame Local Spec_Simple Spec_OAuth Spec_Wire Spec_Session Spec_Registry Spec_ScramText Spec_Scram
  Spec_Bearer Spec_Evidence Proof_Simple Proof_OAuth Proof_Session Proof_Registry Proof_Scram Proof_Bearer Proof_Utf8.
Open Scope m_scope.

(** * Computations that never validate *)

Definition calm (w w' : world) : Prop := exists evs, w_trace w' = w_trace w ++ evs /\ validations evs = [].
Lemma calm_frame : frame calm.
Proof.
  split.
  - intros w. exists []. split; [symmetry; apply app_nil_r|reflexivity].
  - intros a b c (e1 & T1 & V1) (e2 & T2 & V2). exists (e1 ++ e2).
    rewrite T2, T1, app_assoc. split; [reflexivity|]. rewrite validations_app, V1, V2. reflexivity.
Qed.
Lemma calm_admits ev : (forall c, ev <> EvValidate c) -> admits calm ev.
Proof.
  intros H w. exists [ev]. split; [reflexivity|]. destruct ev; try reflexivity. exfalso. exact (H _ eq_refl).
Qed.
Lemma calm_same (w w' : world) : w_trace w' = w_trace w -> calm w w'.
Proof. intros H. exists []. rewrite app_nil_r. split; [exact H|reflexivity]. Qed.
Lemma calm_asks q : asks calm q.
Proof. repeat split; intros; apply calm_admits; intros; discriminate. Qed.
Lemma calm_writes : writes calm.
Proof. intros p w w' [Ho [Ht _]]. apply calm_same, Ht. Qed.
Lemma calm_draws : Frame.draws_ok calm.
Proof. intros w. apply calm_same. reflexivity. Qed.
Ltac calm_done :=
  first [ apply calm_asks | apply calm_writes | apply calm_draws
        | intros; apply calm_admits; intros; discriminate ].

Definition never_validates (m : mech) : bool :=
  match m with
  | XPlainC | XLoginC _ | XExternalC | XAnonymousC | XXOAuth2C _ | XOAuthBearerC _ | XScramC _ _
  | XGssapiC _ | XGssapiS _ => true
  | _ => false
  end.

Lemma calm_step e s input script r out s' evs :
  never_validates (s_mech s) = true -> step e s input script = (r, out, s') -> new_events s s' evs ->
  validations evs = [].
Proof.
  intros Hm H N. apply run_ok in H. destruct H as [m' [w' [H [_ ->]]]].
  pose proof calm_frame as F.
  assert (K : calm (mk_world [] script (s_trace s) (s_rng s) (s_val s)) w').
  { unfold mech_step, bind at 1, getl in H.
    destruct (s_mech s); try discriminate Hm;
      match type of H with ?m ?l ?w = _ =>
        assert (K : keeps calm m) by (unfold_steps; repeat (first [ keep_step F | calm_done ]));
        specialize (K l w); rewrite H in K; exact K end. }
  destruct K as (evs' & T & V). unfold new_events in N. cbn [s_trace w_trace] in *.
  rewrite T in N. apply app_inv_head in N. subst evs'. exact V.
Qed.

(** * Histories *)

Lemma calls_trans e a b c : calls e a b -> calls e b c -> calls e a c.
Proof.
  intros H K. induction H; [exact K|eapply ca_step|eapply ca_encode|eapply ca_decode]; eauto.
Qed.

Lemma calls_reach e s0 s (I : session -> Prop) :
  (forall s, I s -> mech_has_layer (s_mech s) = false) ->
  (forall s i sc r o s', calls e s0 s -> I s -> step e s i sc = (r, o, s') -> I s') ->
  I s0 -> calls e s0 s -> I s.
Proof.
  intros HL HS H0 H.
  assert (G : forall a, calls e s0 a -> I a -> calls e a s -> I s).
  { clear H H0. intros a Ca Ia H. induction H as [a|a b c i sc r o E H IH|a b c i sc r o E H IH|a b c i sc r o E H IH].
    - exact Ia.
    - apply IH.
      + eapply calls_trans; [exact Ca|]. eapply ca_step; [exact E|constructor].
      + eapply HS; eauto.
    - destruct (layer_false e a (HL _ Ia)) as [_ L]. rewrite (proj1 (L i sc)) in E. injection E as _ _ <-.
      apply IH; assumption.
    - destruct (layer_false e a (HL _ Ia)) as [_ L]. rewrite (proj2 (L i sc)) in E. injection E as _ _ <-.
      apply IH; assumption. }
  exact (G s0 (ca_nil _ _) H0 H).
Qed.

(** * The mechanisms *)

Lemma in_validations c evs : In (EvValidate c) evs -> In c (validations evs).
Proof.
  intros H. apply in_split in H. destruct H as (a & b & ->). rewrite validations_app. apply in_or_app. right. left. reflexivity.
Qed.

Lemma one_event s s' evs c c' : new_events s s' evs -> new_events s s' [EvValidate c] -> In (EvValidate c') evs -> c' = c.
Proof.
  intros N1 N2 H. unfold new_events in *. rewrite N1 in N2. apply app_inv_head in N2. subst evs.
  destruct H as [[= ->]|[]]. reflexivity.
Qed.
Lemma no_event s s' evs c : new_events s s' evs -> new_events s s' [] -> In (EvValidate c) evs -> False.
Proof.
  intros N1 N2 H. unfold new_events in *. rewrite N1 in N2. apply app_inv_head in N2. subst evs. destruct H.
Qed.

Lemma step_wrap e s input script r out s' : step e s input script = (r, out, s') ->
  mech_step e input (s_mech s) (mk_world [] script (s_trace s) (s_rng s) (s_val s)) =
  (r, s_mech s', mk_world out (w_script (snd (mech_step e input (s_mech s) (mk_world [] script (s_trace s) (s_rng s) (s_val s)))))
     (s_trace s') (s_rng s') (s_val s')).
Proof.
  unfold step, run. destruct (mech_step _ _ _ _) as [[r1 m1] w1]. intros [= <- <- <-]. destruct w1; reflexivity.
Qed.

Lemma plain_stays e s input script r out s' :
  s_mech s = XPlainS -> step e s input script = (r, out, s') -> s_mech s' = XPlainS.
Proof.
  intros Em H. apply step_wrap in H. rewrite Em in H. unfold mech_step, bind, getl in H. apply on_eq in H.
  destruct H as [l' [_ E]]. exact E.
Qed.
Lemma external_stays e s input script r out s' :
  s_mech s = XExternalS -> step e s input script = (r, out, s') -> s_mech s' = XExternalS.
Proof.
  intros Em H. apply step_wrap in H. rewrite Em in H. unfold mech_step, bind, getl in H. apply on_eq in H.
  destruct H as [l' [_ E]]. exact E.
Qed.
Lemma anonymous_stays e s input script r out s' :
  s_mech s = XAnonymousS -> step e s input script = (r, out, s') -> s_mech s' = XAnonymousS.
Proof.
  intros Em H. apply step_wrap in H. rewrite Em in H. unfold mech_step, bind, getl in H. apply on_eq in H.
  destruct H as [l' [_ E]]. exact E.
Qed.

Lemma plain_evidence e s0 s1 input script r out s2 evs c :
  s_mech s0 = XPlainS -> calls e s0 s1 -> step e s1 input script = (r, out, s2) ->
  new_events s1 s2 evs -> In (EvValidate c) evs -> evidence e s0 s1 input evs c.
Proof.
  intros Em Hc H N Hi.
  assert (Em1 : s_mech s1 = XPlainS).
  { apply (calls_reach e s0 s1 (fun s => s_mech s = XPlainS)); auto; [intros s ->; reflexivity|].
    intros s i sc r0 o s' _ Is E. exact (plain_stays _ _ _ _ _ _ _ Is E). }
  destruct input as [m|].
  - destruct (plain_server_exact _ _ _ _ _ _ _ Em1 H) as (_ & [(z & a & p & c1 & A & N1 & O & _)|(_ & N1 & _)]).
    + pose proof (one_event _ _ _ _ _ N N1 Hi) as ->. eapply by_plain; eauto.
    + destruct (no_event _ _ _ _ N N1 Hi).
  - rewrite (plain_server_needs_input _ _ _ Em1) in H. injection H as _ _ <-.
    exfalso. eapply no_event; [exact N| |exact Hi]. symmetry. apply app_nil_r.
Qed.

Lemma text_input (i : option bytes) : i = Some (unwrap_or_empty i) \/ (i = None /\ unwrap_or_empty i = []).
Proof. destruct i; auto. Qed.

Lemma external_evidence e s0 s1 input script r out s2 evs c :
  s_mech s0 = XExternalS -> calls e s0 s1 -> step e s1 input script = (r, out, s2) ->
  new_events s1 s2 evs -> In (EvValidate c) evs -> evidence e s0 s1 input evs c.
Proof.
  intros Em Hc H N Hi.
  assert (Em1 : s_mech s1 = XExternalS).
  { apply (calls_reach e s0 s1 (fun s => s_mech s = XExternalS)); auto; [intros s ->; reflexivity|].
    intros s i sc r0 o s' _ Is E. exact (external_stays _ _ _ _ _ _ _ Is E). }
  destruct (external_server_exact _ _ _ _ _ _ _ Em1 H) as (_ & K).
  destruct (utf8_valid (unwrap_or_empty input)) eqn:U.
  - destruct K as (c1 & N1 & O & _). pose proof (one_event _ _ _ _ _ N N1 Hi) as ->.
    eapply by_external; [exact Em|apply text_input|apply utf8_exact; exact U|exact O].
  - destruct K as (N1 & _). destruct (no_event _ _ _ _ N N1 Hi).
Qed.
Lemma anonymous_evidence e s0 s1 input script r out s2 evs c :
  s_mech s0 = XAnonymousS -> calls e s0 s1 -> step e s1 input script = (r, out, s2) ->
  new_events s1 s2 evs -> In (EvValidate c) evs -> evidence e s0 s1 input evs c.
Proof.
  intros Em Hc H N Hi.
  assert (Em1 : s_mech s1 = XAnonymousS).
  { apply (calls_reach e s0 s1 (fun s => s_mech s = XAnonymousS)); auto; [intros s ->; reflexivity|].
    intros s i sc r0 o s' _ Is E. exact (anonymous_stays _ _ _ _ _ _ _ Is E). }
  destruct (anonymous_server_exact _ _ _ _ _ _ _ Em1 H) as (_ & K).
  destruct (utf8_valid (unwrap_or_empty input)) eqn:U.
  - destruct K as (c1 & N1 & O & _). pose proof (one_event _ _ _ _ _ N N1 Hi) as ->.
    eapply by_anonymous; [exact Em|apply text_input|apply utf8_exact; exact U|exact O].
  - destruct K as (N1 & _). destruct (no_event _ _ _ _ N N1 Hi).
Qed.

(** ** LOGIN *)

Definition login_reached (e : env) (s0 s : session) : Prop :=
  exists st, s_mech s = XLoginS st /\
    match st with
    | LsPass u => utf8_text u /\ exists s2 s3 script out, calls e s0 s2 /\
        step e s2 (Some u) script = (Ok Running, out, s3) /\ failing e s3 s
    | _ => True
    end.

Lemma login_moves e s st input script r out s' :
  s_mech s = XLoginS st -> step e s input script = (r, out, s') ->
  exists st', s_mech s' = XLoginS st' /\
    match st' with
    | LsPass u => (utf8_text u /\ input = Some u /\ r = Ok Running) \/ (st = LsPass u /\ forall x, r <> Ok x)
    | _ => True
    end.
Proof.
  intros Em H. apply step_wrap in H. rewrite Em in H. unfold mech_step, bind at 1, getl in H. apply on_eq in H.
  destruct H as [l' [H E]]. exists l'. split; [exact E|].
  unfold login_server_step, bind at 1, getl in H. destruct st as [| |u|].
  - unfold bind, write_all, setl, ret in H. destruct (write_all_fuel _ _ _) as [r1 w1].
    destruct r1; injection H as _ <- _; exact I.
  - destruct input as [m|]; [|injection H as _ <- _; exact I]. unfold from_utf8 in H.
    destruct (utf8_valid m) eqn:U; [|injection H as _ <- _; exact I].
    unfold bind, write_all, setl, ret in H. destruct (write_all_fuel _ _ _) as [r1 w1].
    destruct r1; injection H as <- <- _; try exact I.
    left. split; [apply utf8_exact; exact U|]. auto.
  - destruct input as [m|]; [|injection H as <- <- _; right; split; [reflexivity|discriminate]].
    unfold bind, validate, setl, ret in H. destruct (run_validate _ _ _) as [[x|] slot]; injection H as <- <- _; [|exact I].
    right. split; [reflexivity|discriminate].
  - injection H as _ <- _. exact I.
Qed.

Lemma login_reaches e s0 s : s_mech s0 = XLoginS LsNew -> calls e s0 s -> login_reached e s0 s.
Proof.
  intros Em. apply calls_reach.
  - intros s1 (st & -> & _). reflexivity.
  - intros s1 i sc r o s2 Hc (st & E1 & K) H.
    destruct (login_moves _ _ _ _ _ _ _ _ E1 H) as (st' & E2 & K2). exists st'. split; [exact E2|].
    destruct st' as [| |u|]; try exact I. destruct K2 as [(U & -> & ->)|(-> & Hr)].
    + split; [exact U|]. exists s1, s2, sc, o. split; [exact Hc|]. split; [exact H|constructor].
    + destruct K as (U & s3 & s4 & sc1 & o1 & C1 & S1 & F1). split; [exact U|].
      exists s3, s4, sc1, o1. split; [exact C1|]. split; [exact S1|]. eapply fa_step; eauto.
  - exists LsNew. split; [exact Em|exact I].
Qed.

Lemma written_trace {L} data (l : L) w r l' w' : write_all data l w = (r, l', w') -> w_trace w' = w_trace w.
Proof. intros H. pose proof (quiet_write_all data l w) as Q. rewrite H in Q. apply Q. Qed.

Lemma login_evidence e s0 s1 input script r out s2 evs c :
  s_mech s0 = XLoginS LsNew -> calls e s0 s1 -> step e s1 input script = (r, out, s2) ->
  new_events s1 s2 evs -> In (EvValidate c) evs -> evidence e s0 s1 input evs c.
Proof.
  intros Em Hc H N Hi. destruct (login_reaches _ _ _ Em Hc) as (st & E1 & K).
  pose proof H as H'. apply step_wrap in H. rewrite E1 in H. unfold mech_step, bind at 1, getl in H. apply on_eq in H.
  destruct H as [l' [H E]]. unfold new_events in N.
  assert (Same : s_trace s2 = s_trace s1 -> evidence e s0 s1 input evs c).
  { intros T. exfalso. eapply no_event; [exact N| |exact Hi]. unfold new_events. rewrite T. symmetry. apply app_nil_r. }
  unfold login_server_step, bind at 1, getl in H. destruct st as [| |u|].
  - unfold bind, setl, ret in H. destruct (write_all _ _ _) as [[r1 l1] w1] eqn:W.
    apply Same. apply written_trace in W. destruct r1; apply (f_equal snd) in H; cbn [snd] in H; rewrite H in W; exact W.
  - destruct input as [m|]; [|apply (f_equal (fun x => w_trace (snd x))) in H; apply Same; symmetry; exact H].
    destruct (from_utf8 m); [|apply (f_equal (fun x => w_trace (snd x))) in H; apply Same; symmetry; exact H].
    unfold bind, setl, ret in H. destruct (write_all _ _ _) as [[r1 l1] w1] eqn:W.
    apply Same. apply written_trace in W. destruct r1; apply (f_equal snd) in H; cbn [snd] in H; rewrite H in W; exact W.
  - destruct input as [m|]; [|apply (f_equal (fun x => w_trace (snd x))) in H; apply Same; symmetry; exact H].
    destruct K as (U & s3 & s4 & sc1 & o1 & C1 & S1 & F1).
    assert (T : s_trace s2 = s_trace s1 ++ [EvValidate (login_provider u m)]).
    { unfold bind, validate, setl, ret in H. destruct (run_validate _ _ _) as [[x|] slot]; apply (f_equal (fun x => w_trace (snd x))) in H; symmetry; exact H. }
    rewrite N in T. apply app_inv_head in T. subst evs. destruct Hi as [[= <-]|[]].
    eapply by_login; eauto. apply login_provider_offers.
  - apply (f_equal (fun x => w_trace (snd x))) in H. apply Same. symmetry. exact H.
Qed.

(** ** XOAUTH2 and OAUTHBEARER *)

Lemma verdict_given {V} e q Q (send : V -> M oauth_sst unit) c l w r l' w' evs c' :
  (forall x, quiet (send x)) -> verdict e q Q send c l w = (r, l', w') ->
  w_trace w' = w_trace w ++ evs -> In (EvValidate c') evs ->
  c' = c /\ exists rest v, evs = EvRequest q c :: rest /\ answers q rest = [v].
Proof.
  intros Hs H T Hi. pose proof H as H0. apply verdict_consulted in H0; [|exact Hs].
  destruct H0 as (evs' & T' & c1 & rest & -> & -> & Hc).
  rewrite T in T'. apply app_inv_head in T'. subst evs.
  split. { destruct Hi as [Hi|Hi]; [discriminate Hi|]. apply Hc, in_validations, Hi. }
  exists rest. unfold verdict, bind at 1 in H.
  match type of H with context [need_with e q c ?f l w] => set (f0 := f) in * end.
  destruct (need_with e q c f0 l w) as [[r1 l1] w1] eqn:E.
  assert (Qf : forall v, quiet (f0 v)).
  { intros v l2 w2. unfold f0. destruct (verdict_of Q v) as [x|]; [|split; reflexivity].
    unfold bind, setl, ret. destruct (Hs x l2 w2) as [T2 Hv].
    destruct (send x l2 w2) as [[[]]]; simpl in *; split; assumption. }
  destruct r1 as [st|x|].
  - apply need_with_ok in E. destruct E as (v & cs1 & cs2 & w2 & H1 & H2 & E & ->). exists v. split; [reflexivity|].
    assert (T1 : w_trace w2 = w_trace w ++ EvRequest q c :: cs1 ++ [EvAnswer q v]).
    { pose proof (Qf v l (add_events (EvRequest q c :: cs1 ++ [EvAnswer q v]) w)) as K. rewrite E in K. apply K. }
    assert (Tw : w_trace w' = (w_trace w2 ++ cs2) ++ [EvValidate c]).
    { unfold bind, validate, ret in H. destruct (run_validate _ _ _) as [[x|] slot];
        apply (f_equal (fun x => w_trace (snd x))) in H; symmetry; exact H. }
    rewrite T, T1, <- !app_assoc in Tw. apply app_inv_head in Tw. cbn [app] in Tw. injection Tw as Tw. rewrite Tw.
    rewrite <- !app_assoc. rewrite !answers_app. rewrite (answers_closures _ _ H1), (answers_closures _ _ H2).
    rewrite answers_answer. reflexivity.
  - apply quiet_request in E; [|exact Qf]. destruct E as (_ & rest' & T1 & V1). exfalso.
    assert (w' = w1) by (apply (f_equal snd) in H; symmetry; exact H). subst w1.
    rewrite T in T1. apply app_inv_head in T1. injection T1 as <-.
    destruct Hi as [Hi|Hi]; [discriminate Hi|]. apply in_validations in Hi. rewrite V1 in Hi. destruct Hi.
  - apply quiet_request in E; [|exact Qf]. destruct E as (_ & rest' & T1 & V1). exfalso.
    assert (w' = w1) by (apply (f_equal snd) in H; symmetry; exact H). subst w1.
    rewrite T in T1. apply app_inv_head in T1. injection T1 as <-.
    destruct Hi as [Hi|Hi]; [discriminate Hi|]. apply in_validations in Hi. rewrite V1 in Hi. destruct Hi.
Qed.

Lemma errored_quiet_x e s input script : s_mech s = XXOAuth2S OsErrored ->
  step e s input script = (Ok (Finished false), [], s).
Proof. intros Em. unfold step, run. rewrite Em. destruct s. cbn in Em. subst. reflexivity. Qed.
Lemma errored_quiet_o e s input script : s_mech s = XOAuthBearerS OsErrored ->
  step e s input script = (Ok (Finished false), [], s).
Proof. intros Em. unfold step, run. rewrite Em. destruct s. cbn in Em. subst. reflexivity. Qed.

Lemma same_events s evs c : new_events s s evs -> In (EvValidate c) evs -> False.
Proof. intros N Hi. eapply no_event; [exact N| |exact Hi]. unfold new_events. symmetry. apply app_nil_r. Qed.

Lemma oauth_moves e s st input script r out s' :
  (s_mech s = XXOAuth2S st -> step e s input script = (r, out, s') -> exists st', s_mech s' = XXOAuth2S st') /\
  (s_mech s = XOAuthBearerS st -> step e s input script = (r, out, s') -> exists st', s_mech s' = XOAuthBearerS st').
Proof.
  split; intros Em H; apply step_wrap in H; rewrite Em in H; unfold mech_step, bind at 1, getl in H; apply on_eq in H;
    destruct H as [l' [_ E]]; eauto.
Qed.

Lemma xoauth2_evidence e s0 s1 input script r out s2 evs c :
  s_mech s0 = XXOAuth2S OsInitial -> calls e s0 s1 -> step e s1 input script = (r, out, s2) ->
  new_events s1 s2 evs -> In (EvValidate c) evs -> evidence e s0 s1 input evs c.
Proof.
  intros Em Hc H N Hi.
  assert (Em1 : exists st, s_mech s1 = XXOAuth2S st).
  { apply (calls_reach e s0 s1 (fun s => exists st, s_mech s = XXOAuth2S st)); eauto; [intros s [st ->]; reflexivity|].
    intros s i sc r0 o s' _ [st Is] E. exact (proj1 (oauth_moves _ _ _ _ _ _ _ _) Is E). }
  destruct Em1 as [[|] Em1].
  2: { rewrite (errored_quiet_x _ _ _ _ Em1) in H. injection H as _ _ <-. destruct (same_events _ _ _ N Hi). }
  apply step_wrap in H; rewrite Em1 in H; unfold mech_step, bind at 1, getl in H; apply on_eq in H.
  destruct H as [l' [H E]]. destruct input as [m|].
  2: { apply (f_equal (fun x => w_trace (snd x))) in H. exfalso. eapply no_event; [exact N| |exact Hi].
       unfold new_events. rewrite app_nil_r. symmetry. exact H. }
  rewrite xoauth2_server_verdict in H. destruct (xoauth2_parse m) as [[u t]|x|] eqn:Ep.
  2,3: apply (f_equal (fun x => w_trace (snd x))) in H; exfalso; eapply no_event; [exact N| |exact Hi];
       unfold new_events; rewrite app_nil_r; symmetry; exact H.
  apply verdict_given with (evs := evs) (c' := c) in H; [|apply quiet_write_all|exact N|exact Hi].
  destruct H as (-> & rest & v & Ev & Av). apply xoauth2_exact in Ep. destruct Ep as (-> & Fu & Uu & Ut).
  apply utf8_exact in Uu, Ut. eapply by_xoauth2; eauto. apply xoauth2_provider_offers.
Qed.

Lemma oauthbearer_evidence e s0 s1 input script r out s2 evs c :
  s_mech s0 = XOAuthBearerS OsInitial -> calls e s0 s1 -> step e s1 input script = (r, out, s2) ->
  new_events s1 s2 evs -> In (EvValidate c) evs -> evidence e s0 s1 input evs c.
Proof.
  intros Em Hc H N Hi.
  assert (Em1 : exists st, s_mech s1 = XOAuthBearerS st).
  { apply (calls_reach e s0 s1 (fun s => exists st, s_mech s = XOAuthBearerS st)); eauto; [intros s [st ->]; reflexivity|].
    intros s i sc r0 o s' _ [st Is] E. exact (proj2 (oauth_moves _ _ _ _ _ _ _ _) Is E). }
  destruct Em1 as [[|] Em1].
  2: { rewrite (errored_quiet_o _ _ _ _ Em1) in H. injection H as _ _ <-. destruct (same_events _ _ _ N Hi). }
  apply step_wrap in H; rewrite Em1 in H; unfold mech_step, bind at 1, getl in H; apply on_eq in H.
  destruct H as [l' [H E]]. destruct input as [m|].
  2: { apply (f_equal (fun x => w_trace (snd x))) in H. exfalso. eapply no_event; [exact N| |exact Hi].
       unfold new_events. rewrite app_nil_r. symmetry. exact H. }
  rewrite oauthbearer_server_verdict in H. destruct (ob_parse m) as [[z t fields]|x|] eqn:Ep.
  2,3: apply (f_equal (fun x => w_trace (snd x))) in H; exfalso; eapply no_event; [exact N| |exact Hi];
       unfold new_events; rewrite app_nil_r; symmetry; exact H.
  apply verdict_given with (evs := evs) (c' := c) in H; [|intros; apply quiet_write_json|exact N|exact Hi].
  destruct H as (-> & rest & v & Ev & Av). apply bearer_exact in Ep. destruct Ep as (h & pairs & E1 & E2 & E3 & E4 & ->).
  assert (R : readable m z t pairs) by (exists h; auto).
  eapply by_oauthbearer; [exact Em|reflexivity|exact R|apply oauthbearer_provider_offers|exact Ev|exact Av].
Qed.

(** ** SCRAM *)

Definition scram_over (m : mech) (a : alg) : Prop := m = XScramS a None \/ m = XScramS a (Some SsFinished).

Definition scram_reached (e : env) (a : alg) (s0 s : session) : Prop :=
  s = s0 \/
  (exists m1 script out, step e s0 (Some m1) script = (Ok Running, out, s) /\
     exists d, s_mech s = XScramS a (Some (SsClientFinal d))) \/
  scram_over (s_mech s) a.

Lemma scram_first_moves e s a plus input script r out s' :
  s_mech s = XScramS a (Some (SsClientFirst plus)) -> step e s input script = (r, out, s') ->
  (exists m d, input = Some m /\ r = Ok Running /\ s_mech s' = XScramS a (Some (SsClientFinal d))) \/
  s_mech s' = XScramS a None.
Proof.
  intros Em H. apply (step_scram_server _ _ _ _ _ _ _ _ _ Em) in H. destruct H as [st1 [w' [H [_ ->]]]].
  cbn [s_mech]. unfold scram_server_step in H. unfold bind at 1, getl in H. unfold bind at 1, setl in H.
  destruct input as [m|]; [|injection H as _ <- _; right; reflexivity].
  unfold bind at 1, locally in H. destruct (handle_client_first _ _ _ _ _ _) as [[[d|x|] l1] w1].
  - injection H as <- <- _. left. eauto.
  - injection H as _ <- _. right; reflexivity.
  - injection H as _ <- _. right; reflexivity.
Qed.

Lemma final_stays {L} e a d m (l : L) w r l' w' : handle_client_final e a d m l w = (r, l', w') -> l' = l.
Proof.
  intros H.
  assert (K : lkeeps (fun x => x = l) (handle_client_final e a d m))
    by (unfold handle_client_final; repeat (lkeep_step || unfold send_final)).
  specialize (K l w eq_refl). rewrite H in K. exact K.
Qed.

Lemma scram_over_moves e s a d input script r out s' :
  s_mech s = XScramS a (Some (SsClientFinal d)) \/ scram_over (s_mech s) a ->
  step e s input script = (r, out, s') -> scram_over (s_mech s') a.
Proof.
  intros Em H. assert (Em' : exists st0, s_mech s = XScramS a st0 /\ (st0 = Some (SsClientFinal d) \/ st0 = None \/ st0 = Some SsFinished)).
  { destruct Em as [->|[->| ->]]; eauto. }
  clear Em. destruct Em' as (st0 & Em & K).
  apply (step_scram_server _ _ _ _ _ _ _ _ _ Em) in H. destruct H as [st1 [w' [H [_ ->]]]].
  cbn [s_mech]. destruct K as [->|[->| ->]].
  - destruct input as [m|].
    + apply server_step2 in H. destruct H as (r1 & l1 & H & K). apply final_stays in H. subst l1.
      destruct K as [(_ & _ & ->)|[(x & _ & _ & ->)|(_ & _ & ->)]]; [right|left|left]; reflexivity.
    + injection H as _ <- _. left. reflexivity.
  - injection H as _ <- _. left. reflexivity.
  - injection H as _ <- _. left. reflexivity.
Qed.

Lemma scram_reaches e a plus s0 s : s_mech s0 = XScramS a (Some (SsClientFirst plus)) -> calls e s0 s ->
  scram_reached e a s0 s.
Proof.
  intros Em. apply calls_reach.
  - intros s1 [->|[(m1 & sc & o & _ & d & ->)|[->| ->]]]; [rewrite Em|..]; reflexivity.
  - intros s1 i sc r o s2 _ [->|[(m1 & sc1 & o1 & H1 & d & E)|K]] H.
    + destruct (scram_first_moves _ _ _ _ _ _ _ _ _ Em H) as [(m & d & -> & -> & E)|E].
      * right. left. eauto 10.
      * right. right. left. exact E.
    + right. right. eapply scram_over_moves; [left; exact E|exact H].
    + right. right. eapply (scram_over_moves _ _ _ None); [right; exact K|exact H].
  - left. reflexivity.
Qed.

Lemma calm_client_first e a plus m : keeps calm (handle_client_first e a plus m).
Proof.
  pose proof calm_frame as F. unfold_steps. repeat (first [ keep_step F | calm_done ]).
Qed.

Lemma scram_first_calm e s a plus input script r out s' evs :
  s_mech s = XScramS a (Some (SsClientFirst plus)) -> step e s input script = (r, out, s') ->
  new_events s s' evs -> validations evs = [].
Proof.
  intros Em H N. apply (step_scram_server _ _ _ _ _ _ _ _ _ Em) in H. destruct H as [st1 [w' [H [_ ->]]]].
  unfold new_events in N. cbn [s_trace] in N.
  assert (K : calm (mk_world [] script (s_trace s) (s_rng s) (s_val s)) w').
  { unfold scram_server_step in H. unfold bind at 1, getl in H. unfold bind at 1, setl in H.
    destruct input as [m|]; [|injection H as _ _ <-; apply calm_same; reflexivity].
    pose proof (calm_client_first e a plus m [] (mk_world [] script (s_trace s) (s_rng s) (s_val s))) as K.
    unfold bind at 1, locally in H. destruct (handle_client_first _ _ _ _ _ _) as [[[d|x|] l1] w1];
      apply (f_equal snd) in H; cbn [snd] in H; subst w'; exact K. }
  destruct K as (evs' & T & V). cbn [w_trace] in T. rewrite T in N. apply app_inv_head in N. subst. exact V.
Qed.

Lemma scram_evidence e a plus s0 s1 input script r out s2 evs c :
  s_mech s0 = XScramS a (Some (SsClientFirst plus)) -> crypto_ok e ->
  calls e s0 s1 -> step e s1 input script = (r, out, s2) ->
  new_events s1 s2 evs -> In (EvValidate c) evs -> evidence e s0 s1 input evs c.
Proof.
  intros Em Hcr Hc H N Hi. destruct (scram_reaches _ _ _ _ _ Em Hc) as [->|[(m1 & sc & o & H1 & d & E)|K]].
  - exfalso. pose proof (scram_first_calm _ _ _ _ _ _ _ _ _ _ Em H N) as V. apply in_validations in Hi. rewrite V in Hi. destruct Hi.
  - destruct input as [m|].
    + destruct (server_first_any _ _ _ _ _ _ _ _ _ Em H1) as (evs1 & f & two & z & user & cn & t & data & _ & N1 & _ & _ & Hf & Hp & Hd & K).
      cbn zeta in K. destruct K as [(sp & As & _ & W & _)|(W & _)].
      * destruct (server_second _ _ _ _ _ _ _ _ _ _ _ _ _ _ W Hcr H) as [(cb & p64 & exts & rest & A & _ & K)|(_ & N2 & _)].
        -- destruct K as [(x & _ & N2 & _)|(c1 & N2 & O & _)].
           ++ destruct (no_event _ _ _ _ N N2 Hi).
           ++ pose proof (one_event _ _ _ _ _ N N2 Hi) as ->. eapply by_scram; eauto.
        -- destruct (no_event _ _ _ _ N N2 Hi).
      * destruct (server_second_unknown _ _ _ _ _ _ _ _ W H) as (N2 & _). destruct (no_event _ _ _ _ N N2 Hi).
    + apply (step_scram_server _ _ _ _ _ _ _ _ _ E) in H. destruct H as [st1 [w' [H [_ ->]]]].
      injection H as _ _ <-. exfalso. eapply no_event; [exact N| |exact Hi]. unfold new_events. symmetry. apply app_nil_r.
  - exfalso. destruct K as [E|E]; apply (step_scram_server _ _ _ _ _ _ _ _ _ E) in H; destruct H as [st1 [w' [H [_ ->]]]];
      injection H as _ _ <-; (eapply no_event; [exact N| |exact Hi]); unfold new_events; symmetry; apply app_nil_r.
Qed.

(** * All mechanisms *)

Lemma never_stays e s s' : never_validates (s_mech s) = true -> calls e s s' -> never_validates (s_mech s') = true.
Proof.
  intros Em H. induction H as [s|s s1 s2 i sc r o H _ IH|s s1 s2 i sc r o H _ IH|s s1 s2 i sc r o H _ IH]; [exact Em|..];
    apply IH; apply run_ok in H; destruct H as [m' [w' [H [_ ->]]]]; cbn [s_mech].
  - unfold mech_step, bind, getl in H. destruct (s_mech s); try discriminate Em; apply on_eq in H; destruct H as [l' [_ ->]]; reflexivity.
  - unfold mech_encode, bind, getl, fail in H. destruct (s_mech s); try discriminate Em;
      try (injection H as _ <- _; reflexivity); apply on_eq in H; destruct H as [l' [_ ->]]; reflexivity.
  - unfold mech_decode, bind, getl, fail in H. destruct (s_mech s); try discriminate Em;
      try (injection H as _ <- _; reflexivity); apply on_eq in H; destruct H as [l' [_ ->]]; reflexivity.
Qed.

Theorem validated_with_evidence e reg name d s0 s1 input script r out s2 evs c :
  server_start reg name = Ok (Builtin (s_mech s0), d) -> crypto_ok e ->
  calls e s0 s1 -> step e s1 input script = (r, out, s2) -> new_events s1 s2 evs ->
  In (EvValidate c) evs -> evidence e s0 s1 input evs c.
Proof.
  intros Hst Hcr Hc H N Hi. apply server_exact in Hst. destruct Hst as [_ Hf].
  remember (s_mech s0) as ms eqn:Em. symmetry in Em. inversion Hf; subst.
  - eapply scram_evidence; eauto.
  - eapply scram_evidence; eauto.
  - eapply plain_evidence; eauto.
  - eapply login_evidence; eauto.
  - eapply anonymous_evidence; eauto.
  - eapply external_evidence; eauto.
  - eapply xoauth2_evidence; eauto.
  - eapply oauthbearer_evidence; eauto.
  - exfalso. assert (K : never_validates (s_mech s1) = true) by (eapply never_stays; [match goal with E : _ = XGssapiS _ |- _ => rewrite E | E : XGssapiS _ = _ |- _ => rewrite <- E end; reflexivity|exact Hc]).
    apply in_validations in Hi. rewrite (calm_step _ _ _ _ _ _ _ _ K H N) in Hi. destruct Hi.
Qed.

Lemma encode_calm e input : keeps calm (mech_encode e input).
Proof.
  pose proof calm_frame as F. unfold mech_encode, gss_client_encode, gss_server_encode.
  unfold_steps. repeat (first [ keep_step F | calm_done ]).
Qed.
Lemma decode_calm e input : keeps calm (mech_decode e input).
Proof.
  pose proof calm_frame as F. unfold mech_decode, gss_client_decode, gss_server_decode.
  unfold_steps. repeat (first [ keep_step F | calm_done ]).
Qed.
Lemma layer_calls_calm {A} (m : M mech A) s script r out s' : keeps calm m -> run m s script = (r, out, s') ->
  exists evs, new_events s s' evs /\ validations evs = [].
Proof.
  intros K H. apply run_ok in H. destruct H as [m' [w' [H [_ ->]]]].
  specialize (K (s_mech s) (mk_world [] script (s_trace s) (s_rng s) (s_val s))). rewrite H in K. exact K.
Qed.

Lemma calls_calm e s s' : never_validates (s_mech s) = true -> calls e s s' ->
  exists evs, new_events s s' evs /\ validations evs = [].
Proof.
  intros Em H. induction H as [s|s s1 s2 i sc r o H C IH|s s1 s2 i sc r o H C IH|s s1 s2 i sc r o H C IH].
  - exists []. split; [unfold new_events; symmetry; apply app_nil_r|reflexivity].
  - assert (K : exists evs, new_events s s1 evs).
    { apply (run_vfr e) in H; [|apply step_vfr]. destruct H as (evs & T & _). exists evs. exact T. }
    destruct K as (evs & N). pose proof (calm_step _ _ _ _ _ _ _ _ Em H N) as V.
    assert (Em1 : never_validates (s_mech s1) = true) by (eapply never_stays; [exact Em|eapply ca_step; [exact H|constructor]]).
    destruct (IH Em1) as (evs2 & N2 & V2). exists (evs ++ evs2). unfold new_events in *.
    rewrite N2, N, app_assoc. split; [reflexivity|]. rewrite validations_app, V, V2. reflexivity.
  - assert (Em1 : never_validates (s_mech s1) = true) by (eapply never_stays; [exact Em|eapply ca_encode; [exact H|constructor]]).
    destruct (IH Em1) as (evs2 & N2 & V2). apply layer_calls_calm in H; [|apply encode_calm]. destruct H as (evs & N & V).
    exists (evs ++ evs2). unfold new_events in *.
    rewrite N2, N, app_assoc. split; [reflexivity|]. rewrite validations_app, V, V2. reflexivity.
  - assert (Em1 : never_validates (s_mech s1) = true) by (eapply never_stays; [exact Em|eapply ca_decode; [exact H|constructor]]).
    destruct (IH Em1) as (evs2 & N2 & V2). apply layer_calls_calm in H; [|apply decode_calm]. destruct H as (evs & N & V).
    exists (evs ++ evs2). unfold new_events in *.
    rewrite N2, N, app_assoc. split; [reflexivity|]. rewrite validations_app, V, V2. reflexivity.
Qed.

Theorem clients_never_validate e reg cb prefer offered d s0 s1 evs :
  client_start reg cb prefer offered = Ok (Builtin (s_mech s0), d) ->
  calls e s0 s1 -> new_events s0 s1 evs -> validations evs = [].
Proof.
  intros H C N. apply start_inv in H. destruct H as [_ [_ [H _]]].
  assert (Em : never_validates (s_mech s0) = true).
  { remember (s_mech s0) as ms. inversion H; subst; reflexivity. }
  destruct (calls_calm _ _ _ Em C) as (evs' & N' & V). unfold new_events in *. rewrite N in N'. apply app_inv_head in N'.
  subst. exact V.
Qed.

(** A value exists only if somebody was validated. *)
Lemma first_produced_in e tr evs x : first_produced e tr evs (Some x) ->
  exists a c b, evs = a ++ EvValidate c :: b /\ produces e (tr ++ a) c (Some x).
Proof.
  intros H. remember (Some x) as o eqn:Eo. induction H as [tr|tr ev evs o Hn _ IH|tr c evs o Hp _ IH|tr c evs y Hp].
  - discriminate.
  - destruct (IH Eo) as (a & c & b & -> & P). exists (ev :: a), c, b. rewrite <- app_assoc in P. split; [reflexivity|exact P].
  - destruct (IH Eo) as (a & c' & b & -> & P). exists (EvValidate c :: a), c', b. rewrite <- app_assoc in P. split; [reflexivity|exact P].
  - injection Eo as ->. exists [], c, evs. rewrite app_nil_r. split; [reflexivity|exact Hp].
Qed.

Lemma calls_validation e s0 s evs a c b : calls e s0 s -> new_events s0 s evs -> evs = a ++ EvValidate c :: b ->
  exists s1 input script r out s2 evs1 a1 b1, calls e s0 s1 /\ step e s1 input script = (r, out, s2) /\ calls e s2 s /\
    new_events s1 s2 evs1 /\ evs1 = a1 ++ EvValidate c :: b1 /\ s_trace s1 ++ a1 = s_trace s0 ++ a.
Proof.
  intros H. revert evs a b. induction H as [s|s s1 s2 i sc r o H C IH|s s1 s2 i sc r o H C IH|s s1 s2 i sc r o H C IH];
    intros evs a b N E.
  - exfalso. subst evs. unfold new_events in N. rewrite <- app_nil_r in N at 1. apply app_inv_head in N. destruct a; discriminate N.
  - assert (K : exists evs1, s_trace s1 = s_trace s ++ evs1).
    { apply (run_vfr e) in H; [|apply step_vfr]. destruct H as (evs1 & T & _). eauto. }
    destruct K as (evs1 & T1). destruct (calls_vfr _ _ _ C) as (evs2 & T2 & _).
    assert (Ev : a ++ EvValidate c :: b = evs1 ++ evs2).
    { unfold new_events in N. rewrite T2, T1, <- app_assoc in N. apply app_inv_head in N. congruence. }
    apply app_eq_app in Ev. destruct Ev as (l & [[-> K]|[-> K]]).
    + destruct (IH evs2 l b T2 K) as (s3 & i3 & sc3 & r3 & o3 & s4 & evs3 & a1 & b1 & C1 & S1 & C2 & N1 & Ee & Tt).
      exists s3, i3, sc3, r3, o3, s4, evs3, a1, b1. split; [eapply ca_step; eauto|]. do 4 (split; [assumption|]).
      rewrite Tt, T1, app_assoc. reflexivity.
    + destruct l as [|ev l].
      * destruct (IH evs2 [] b T2 (eq_sym K)) as (s3 & i3 & sc3 & r3 & o3 & s4 & evs3 & a1 & b1 & C1 & S1 & C2 & N1 & Ee & Tt).
        exists s3, i3, sc3, r3, o3, s4, evs3, a1, b1. split; [eapply ca_step; eauto|]. do 4 (split; [assumption|]).
        rewrite Tt, T1, !app_nil_r. reflexivity.
      * injection K as <- K. exists s, i, sc, r, o, s1, (a ++ EvValidate c :: l), a, l.
        split; [constructor|]. split; [exact H|]. split; [exact C|]. split; [exact T1|]. split; reflexivity.
  - apply layer_calls_calm in H as H'; [|apply encode_calm]. destruct H' as (evs1 & T1 & V1). unfold new_events in T1.
    destruct (calls_vfr _ _ _ C) as (evs2 & T2 & _).
    assert (Ev : a ++ EvValidate c :: b = evs1 ++ evs2).
    { unfold new_events in N. rewrite T2, T1, <- app_assoc in N. apply app_inv_head in N. congruence. }
    apply app_eq_app in Ev. destruct Ev as (l & [[-> K]|[-> K]]).
    + destruct (IH evs2 l b T2 K) as (s3 & i3 & sc3 & r3 & o3 & s4 & evs3 & a1 & b1 & C1 & S1 & C2 & N1 & Ee & Tt).
      exists s3, i3, sc3, r3, o3, s4, evs3, a1, b1. split; [eapply ca_encode; eauto|]. do 4 (split; [assumption|]).
      rewrite Tt, T1, app_assoc. reflexivity.
    + destruct l as [|ev l].
      * destruct (IH evs2 [] b T2 (eq_sym K)) as (s3 & i3 & sc3 & r3 & o3 & s4 & evs3 & a1 & b1 & C1 & S1 & C2 & N1 & Ee & Tt).
        exists s3, i3, sc3, r3, o3, s4, evs3, a1, b1. split; [eapply ca_encode; eauto|]. do 4 (split; [assumption|]).
        rewrite Tt, T1, !app_nil_r. reflexivity.
      * injection K as <- K. exfalso. rewrite validations_app in V1. destruct (app_eq_nil _ _ V1) as [_ V2]. discriminate V2.
  - apply layer_calls_calm in H as H'; [|apply decode_calm]. destruct H' as (evs1 & T1 & V1). unfold new_events in T1.
    destruct (calls_vfr _ _ _ C) as (evs2 & T2 & _).
    assert (Ev : a ++ EvValidate c :: b = evs1 ++ evs2).
    { unfold new_events in N. rewrite T2, T1, <- app_assoc in N. apply app_inv_head in N. congruence. }
    apply app_eq_app in Ev. destruct Ev as (l & [[-> K]|[-> K]]).
    + destruct (IH evs2 l b T2 K) as (s3 & i3 & sc3 & r3 & o3 & s4 & evs3 & a1 & b1 & C1 & S1 & C2 & N1 & Ee & Tt).
      exists s3, i3, sc3, r3, o3, s4, evs3, a1, b1. split; [eapply ca_decode; eauto|]. do 4 (split; [assumption|]).
      rewrite Tt, T1, app_assoc. reflexivity.
    + destruct l as [|ev l].
      * destruct (IH evs2 [] b T2 (eq_sym K)) as (s3 & i3 & sc3 & r3 & o3 & s4 & evs3 & a1 & b1 & C1 & S1 & C2 & N1 & Ee & Tt).
        exists s3, i3, sc3, r3, o3, s4, evs3, a1, b1. split; [eapply ca_decode; eauto|]. do 4 (split; [assumption|]).
        rewrite Tt, T1, !app_nil_r. reflexivity.
      * injection K as <- K. exfalso. rewrite validations_app in V1. destruct (app_eq_nil _ _ V1) as [_ V2]. discriminate V2.
Qed.

Theorem value_with_evidence e reg name d s0 s x :
  server_start reg name = Ok (Builtin (s_mech s0), d) -> s_val s0 = None -> crypto_ok e ->
  calls e s0 s -> fst (validation s) = Some x ->
  exists s1 input script r out s2 evs before c after,
    calls e s0 s1 /\ step e s1 input script = (r, out, s2) /\ calls e s2 s /\
    new_events s1 s2 evs /\ evs = before ++ EvValidate c :: after /\
    evidence e s0 s1 input evs c /\ produces e (s_trace s1 ++ before) c (Some x).
Proof.
  intros Hst H0 Hcr C V. destruct (validation_first _ _ _ (Some x) H0 C) as (evs & N & F).
  apply F in V. apply first_produced_in in V. destruct V as (a & c & b & E & P).
  destruct (calls_validation _ _ _ _ _ _ _ C N E) as (s1 & i & sc & r & o & s2 & evs1 & a1 & b1 & C1 & S1 & C2 & N1 & E1 & T).
  exists s1, i, sc, r, o, s2, evs1, a1, c, b1. do 5 (split; [assumption|]).
  rewrite T. split; [|exact P]. eapply validated_with_evidence; eauto. subst evs1. apply in_elt.
Qed.

(** * C47 *)

From Verif Require Import Spec_History Proof_History.

Lemma ongoing_calls e s s' : ongoing e s s' -> calls e s s'.
Proof.
  intros H. induction H as [|s1 i sc o s2 _ IH E]; [constructor|].
  eapply calls_trans; [exact IH|]. eapply ca_step; [exact E|constructor].
Qed.

Theorem gss_server_never e reg name s0 s1 evs :
  server_start reg name = Ok (Builtin (s_mech s0), DGssapi) -> calls e s0 s1 ->
  new_events s0 s1 evs -> validations evs = [].
Proof.
  intros Hst C N. apply server_exact in Hst. destruct Hst as [_ Hf].
  assert (Em : never_validates (s_mech s0) = true).
  { remember (s_mech s0) as ms. clear - Hf. inversion Hf; subst; reflexivity. }
  destruct (calls_calm _ _ _ Em C) as (evs' & N' & V). unfold new_events in *. rewrite N in N'.
  apply app_inv_head in N'. subst. exact V.
Qed.

Theorem gss_server_value e reg name s0 s1 :
  server_start reg name = Ok (Builtin (s_mech s0), DGssapi) -> s_val s0 = None -> calls e s0 s1 ->
  fst (validation s1) = None.
Proof.
  intros Hst H0 C. destruct (calls_vfr _ _ _ C) as (evs & T & V).
  pose proof (gss_server_never _ _ _ _ _ evs Hst C T) as K. cbn [validation fst].
  rewrite V, H0. apply val_after_calm. exact K.
Qed.

Theorem at_most_one_validation_any e reg name m s s1 input script r out s2 evs :
  server_start reg name = Ok (Builtin (s_mech s), m) ->
  ongoing e s s1 -> step e s1 input script = (r, out, s2) -> new_events s s2 evs ->
  length (validations evs) <= 1.
Proof.
  intros Hst Ho H Hn.
  assert (D : m = DGssapi \/ m <> DGssapi) by (destruct m; auto; right; discriminate).
  destruct D as [->|Hm].
  - assert (V : validations evs = []).
    { eapply gss_server_never; [exact Hst| |exact Hn]. eapply calls_trans; [apply ongoing_calls; exact Ho|].
      eapply ca_step; [exact H|constructor]. }
    rewrite V. cbn. lia.
  - eapply at_most_one_validation; eassumption.
Qed.
