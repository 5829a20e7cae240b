(** The example applications. *)
From Coq Require Import Lia.
From Verif Require Import Bytes BytesFacts Types World CallbackSpec WorldFacts Simple OAuth
  ScramParser Scram Gssapi Session Registry Spec_Registry Proof_Registry Apps Spec_Simple Spec_Session Spec_ScramText
  Spec_Scram MonadFacts Frame Proof_Simple Proof_Session Proof_Scram Proof_ScramRun
  Proof_ScramMain Proof_ScramErrors Proof_Credentials Spec_Apps.
Open Scope m_scope.

(** * Answers come from the callback *)

(** Every value received is what the callback answered to a request made. *)
Definition told (e : env) (w w' : world) : Prop :=
  exists evs, w_trace w' = w_trace w ++ evs /\
    forall q v, In (EvAnswer q v) evs -> exists tr c, In (EvRequest q c) evs /\
      answer q (e_cb e tr (e_sd e) c (RSatisfy q)) = inr v.

Section Told.
Context (e : env) (Hp : polite e).

Lemma told_frame : frame (told e).
Proof.
  split.
  - intros w. exists []. rewrite app_nil_r. split; [reflexivity|]. intros q v [].
  - intros a b c [e1 [T1 H1]] [e2 [T2 H2]]. exists (e1 ++ e2).
    split; [rewrite T2, T1, app_assoc; reflexivity|].
    intros q v H. apply in_app_or in H. destruct H as [H|H].
    + destruct (H1 _ _ H) as [tr [c0 [K1 K2]]]. exists tr, c0. split; [|exact K2].
      apply in_or_app; auto.
    + destruct (H2 _ _ H) as [tr [c0 [K1 K2]]]. exists tr, c0. split; [|exact K2].
      apply in_or_app; auto.
Qed.
Lemma told_writes : writes (told e).
Proof.
  intros p w w' [_ [T _]]. exists []. rewrite app_nil_r. split; [exact T|]. intros q v [].
Qed.
Lemma told_draws : Frame.draws_ok (told e).
Proof. intros w. exists []. rewrite app_nil_r. split; [reflexivity|]. intros q v []. Qed.
Lemma told_admits ev :
  match ev with EvAnswer _ _ => False | _ => True end -> admits (told e) ev.
Proof.
  intros H w. exists [ev]. split; [reflexivity|]. intros q v [E|[]]. subst ev. destruct H.
Qed.

Lemma told_maybe {L G} q c (f : pval q -> M L G) :
  (forall x, keeps (told e) (f x)) -> keeps (told e) (maybe_need_with e q c f).
Proof.
  intros Hf l w.
  destruct (maybe_need_with_bubbling e q c f l w (Hp _ _ _)) as [cs [Hcs ->]].
  destruct (answer q _) as [r|v] eqn:Ea.
  - exists (EvRequest q c :: cs). split; [reflexivity|]. intros q' v' [H|H]; [discriminate|].
    unfold only_closures in Hcs. rewrite Forall_forall in Hcs. destruct (Hcs _ H).
  - specialize (Hf v l (add_events (EvRequest q c :: cs ++ [EvAnswer q v]) w)).
    destruct (f v l _) as [[r l1] w1]. eapply fr_trans; [apply told_frame| |exact Hf].
    exists (EvRequest q c :: cs ++ [EvAnswer q v]). split; [reflexivity|].
    intros q' v' [H|H]; [discriminate|]. apply in_app_or in H. destruct H as [H|[H|[]]].
    + unfold only_closures in Hcs. rewrite Forall_forall in Hcs. destruct (Hcs _ H).
    + injection H as <- H. apply (Eqdep_dec.inj_pair2_eq_dec _ prop_eq_dec) in H. subst v'.
      eexists _, c. split; [left; reflexivity|exact Ea].
Qed.
Lemma told_need {L G} q c (f : pval q -> M L G) :
  (forall x, keeps (told e) (f x)) -> keeps (told e) (need_with e q c f).
Proof.
  intros Hf. unfold need_with. apply (keeps_bind _ told_frame); [apply told_maybe; assumption|].
  intros [g|]; [apply (keeps_ret _ told_frame)|apply (keeps_fail _ told_frame)].
Qed.
Lemma told_maybe_cb {L G} name c (f : bytes -> M L G) :
  (forall x, keeps (told e) (f x)) -> keeps (told e) (maybe_need_cb_data e name c f).
Proof.
  intros Hf. unfold maybe_need_cb_data. apply (keeps_bind _ told_frame).
  - apply keeps_log. apply told_admits. exact I.
  - intros _. destruct (e_chan e name).
    + apply (keeps_bind _ told_frame); [apply Hf|]. intros; apply (keeps_ret _ told_frame).
    + apply told_maybe. exact Hf.
Qed.
Lemma told_need_cb {L G} name c (f : bytes -> M L G) :
  (forall x, keeps (told e) (f x)) -> keeps (told e) (need_cb_data e name c f).
Proof.
  intros Hf. unfold need_cb_data. apply (keeps_bind _ told_frame); [apply told_maybe_cb; assumption|].
  intros [g|]; [apply (keeps_ret _ told_frame)|apply (keeps_fail _ told_frame)].
Qed.
Lemma told_validate {L} c : keeps (told e) (@validate L e c).
Proof.
  intros l w. unfold validate.
  destruct (run_validate (e_vtag e) (e_vcb e (w_trace w) (e_sd e) c) (w_val w)) as [r slot].
  assert (H : told e w (mk_world (w_out w) (w_script w) (w_trace w ++ [EvValidate c])
                       (w_rng w) slot)).
  { exists [EvValidate c]. split; [reflexivity|]. intros q x [H|[]]; discriminate. }
  destruct r; exact H.
Qed.

Lemma step_told input : keeps (told e) (mech_step e input).
Proof.
  pose proof told_frame as F. unfold mech_step.
  apply (keeps_bind _ F); [apply (keeps_getl _ F)|]. intros m.
  destruct m; unfold_steps;
  repeat lazymatch goal with
  | |- keeps _ (need_with _ _ _ _) => apply told_need; intros ?
  | |- keeps _ (maybe_need_with _ _ _ _) => apply told_maybe; intros ?
  | |- keeps _ (need_cb_data _ _ _ _) => apply told_need_cb; intros ?
  | |- keeps _ (maybe_need_cb_data _ _ _ _) => apply told_maybe_cb; intros ?
  | |- keeps _ (validate _ _) => apply told_validate
  | |- writes _ => apply told_writes
  | |- Frame.draws_ok _ => apply told_draws
  | |- admits _ _ => apply told_admits; exact I
  | |- keeps _ _ => keep_step F
  end.
Qed.
End Told.

Theorem answers_told e s input script r out s' evs q v :
  polite e -> step e s input script = (r, out, s') -> new_events s s' evs ->
  In v (answers q evs) -> exists tr c, In (EvRequest q c) evs /\
    answer q (e_cb e tr (e_sd e) c (RSatisfy q)) = inr v.
Proof.
  intros Hp H N Hv. apply run_ok in H. destruct H as [m' [w' [H [_ ->]]]].
  pose proof (step_told e Hp input (s_mech s)
    (mk_world [] script (s_trace s) (s_rng s) (s_val s))) as K.
  rewrite H in K. destruct K as [evs' [T K]]. cbn [w_trace] in T.
  unfold new_events in N. cbn [s_trace] in N. rewrite T in N. apply app_inv_head in N. subst evs'.
  apply K. apply in_answers. exact Hv.
Qed.

(** * Values *)

Lemma first_unvalidated e tr evs o :
  first_produced e tr evs o -> validations evs = [] -> o = None.
Proof.
  induction 1 as [|tr ev evs o Hn _ IH|tr c evs o|tr c evs x]; intros Hv; auto; [|discriminate..].
  apply IH. destruct ev; auto. exfalso. eapply Hn. reflexivity.
Qed.

Lemma in_validations c evs : In c (validations evs) -> In (EvValidate c) evs.
Proof.
  induction evs as [|ev evs IH]; [auto|]. destruct ev; cbn [validations]; intros H;
    try (right; apply IH; exact H). destruct H as [->|H]; [left; reflexivity|right; auto].
Qed.

Lemma step_value e s input script r out s' evs :
  s_val s = None -> step e s input script = (r, out, s') -> new_events s s' evs ->
  first_produced e (s_trace s) evs (s_val s').
Proof.
  intros Hv H N.
  destruct (validation_first e s s' (s_val s') Hv) as [evs' [N' K]].
  { eapply ca_step; [exact H|apply ca_nil]. }
  assert (evs' = evs) as -> by (unfold new_events in *; rewrite N in N'; apply app_inv_head in N'; auto).
  apply K. reflexivity.
Qed.

Lemma with_produces e tr c f o :
  e_vcb e tr (e_sd e) c = VWith (e_vtag e) f (fun r => VRet r) ->
  produces e tr c o -> o = match f with inr x => Some x | inl _ => None end.
Proof.
  intros E [cs [x [H1 [H2 ->]]]]. rewrite E in H1. inversion H1 as [| |? ? ? ran r0 cs0 ? H3|]; subst.
  inversion H3; subst. destruct f as [er|v]; cbn [first_final]; [reflexivity|].
  rewrite Nat.eqb_refl. reflexivity.
Qed.
Lemma ret_produces e tr c x o : e_vcb e tr (e_sd e) c = VRet x -> produces e tr c o -> o = None.
Proof.
  intros E [cs [y [H1 [H2 ->]]]]. rewrite E in H1. inversion H1; subst. reflexivity.
Qed.
Lemma first_of_one e tr c o : first_produced e tr [EvValidate c] o -> produces e tr c o.
Proof.
  intros H. inversion H as [|? ? ? ? Hn|? ? ? ? Hp Hf|]; subst.
  - exfalso. eapply Hn. reflexivity.
  - inversion Hf; subst. exact Hp.
  - assumption.
Qed.
Lemma first_of_single e tr evs o c :
  first_produced e tr evs o -> validations evs = [c] -> exists tr', produces e tr' c o.
Proof.
  induction 1 as [|tr ev evs o Hn _ IH|tr c0 evs o Hp Hf|tr c0 evs x Hp]; intros Hv.
  - discriminate.
  - apply IH. destruct ev; auto. exfalso. eapply Hn. reflexivity.
  - injection Hv as -> Hv. rewrite (first_unvalidated _ _ _ _ Hf Hv). eauto.
  - injection Hv as -> Hv. eauto.
Qed.

(** * server_plain.rs *)

Lemma plain_verdict c z a p : offers_plain c z a p ->
  exists v, plain_app_validate c = inr (verdict_value v) /\
    (z <> [] -> plain_policy z a p v) /\ (z = [] -> a <> [] -> v = AuthzBad).
Proof.
  intros [Hz [Ha [Hp _]]]. unfold plain_app_validate. rewrite Hz, Ha, Hp. cbn [may_act].
  eexists. split; [reflexivity|].
  destruct (bytes_eqb z a) eqn:Ez; cbn [negb].
  - apply bytes_eqb_eq in Ez. subst z. split; [|intros -> H; congruence]. intros Hne.
    destruct (bytes_eqb a (lit "username")) eqn:Ea.
    + apply bytes_eqb_eq in Ea. subst a. destruct (bytes_eqb p (lit "secret")) eqn:Ep; cbn [andb].
      * apply bytes_eqb_eq in Ep. subst p. apply pol_accept. auto.
      * apply pol_password; [auto|]. intros ->. rewrite bytes_eqb_refl in Ep. discriminate.
    + cbn [andb]. apply pol_user; [auto|]. intros ->. rewrite bytes_eqb_refl in Ea. discriminate.
  - split; [|reflexivity]. intros Hne. apply pol_authz; [exact Hne|].
    intros ->. rewrite bytes_eqb_refl in Ez. discriminate.
Qed.

(** PLAIN reports only its own errors and those of the validate callback. *)
Lemma plain_app_no_error e s msg script x out s' :
  s_mech s = XPlainS -> s_val s = None ->
  step (server_plain e) s (Some msg) script = (Err (EValidation x), out, s') -> False.
Proof.
  intros Hm Hv H. apply run_ok in H. destruct H as [m' [w' [H _]]]. rewrite Hm in H.
  unfold mech_step, bind, getl in H. apply on_eq in H. destruct H as [l' [H _]].
  unfold plain_server_step in H.
  assert (K : forall z a p, (@validate unit (server_plain e) (plain_provider a z p) ;;;
     ret (Finished false)) tt (mk_world [] script (s_trace s) (s_rng s) (s_val s))
     <> (Err (EValidation x), l', w')).
  { intros z a p K. unfold bind, validate in K. cbn [w_val] in K. rewrite Hv in K.
    destruct (plain_verdict _ _ _ _ (plain_provider_offers z a p)) as [v [E _]].
    unfold server_plain, with_app in K. cbn [e_vtag e_vcb e_sd] in K.
    unfold plain_app_vcb in K. cbn [sd_mech] in K. rewrite bytes_eqb_refl in K.
    cbn [run_validate] in K. rewrite Nat.eqb_refl, E in K. discriminate. }
  repeat match type of H with
  | context [match ?t with _ => _ end] => destruct t; try discriminate
  | (@validate _ _ _ ;;; _) _ _ = _ => exact (K _ _ _ H)
  end.
Qed.

Theorem plain_app_exact e s msg script r out s' :
  s_mech s = XPlainS -> s_val s = None ->
  step (server_plain e) s (Some msg) script = (r, out, s') ->
  out = [] /\
  ((exists z a p v, plain_accepts e msg z a p /\ r = Ok (Finished false) /\ reached s' v /\
      (z <> [] -> plain_policy z a p v) /\ (z = [] -> v = AuthzBad)) \/
   ((forall z a p, ~ plain_accepts e msg z a p) /\ s_val s' = None /\
      exists x, r = Err (EMech (MPlain x)))).
Proof.
  intros Hm Hv H. destruct (plain_server_exact _ _ _ _ _ _ _ Hm H) as [-> K].
  split; [reflexivity|]. destruct K as [[z [a [p [c [Ha [N [Ho Hr]]]]]]]|[Hno [N Hx]]].
  - left. destruct (plain_verdict _ _ _ _ Ho) as [v [E [P1 P2]]].
    exists z, a, p, v. split; [exact Ha|]. split.
    { destruct Hr as [Hr|[x ->]]; [exact Hr|]. exfalso. exact (plain_app_no_error _ _ _ _ _ _ _ Hm Hv H). }
    split; [|split; [exact P1|]].
    + pose proof (step_value _ _ _ _ _ _ _ _ Hv H N) as F. apply first_of_one in F.
      unfold reached. rewrite (with_produces (server_plain e) _ c (plain_app_validate c) _ eq_refl F).
      rewrite E. reflexivity.
    + intros Ez. apply P2; [exact Ez|]. destruct Ha as [a0 [p0 [_ [_ [_ [_ [_ [_ [_ [[_ Hn] _]]]]]]]]]].
      exact Hn.
  - right. split; [exact Hno|]. split; [|exact Hx].
    pose proof (step_value _ _ _ _ _ _ _ _ Hv H N) as F. inversion F; auto.
Qed.

(** * server_scram.rs *)

Lemma scram_app_polite e name : polite (server_scram e name).
Proof.
  intros tr c k. cbn. unfold scram_app_cb. destruct (get_ref c PAuthId) as [u|]; [|exact I].
  destruct (bytes_eqb u (lit "username")); cbn; auto.
Qed.

Lemma scram_app_answers e name tr c sp :
  answer PScramStoredPassword (e_cb (server_scram e name) tr (e_sd (server_scram e name)) c
    (RSatisfy PScramStoredPassword)) = inr sp ->
  get_ref c PAuthId = Some (lit "username") /\ sp = scram_app_stored e.
Proof.
  cbn. unfold scram_app_cb. destruct (get_ref c PAuthId) as [u|]; [|discriminate].
  destruct (bytes_eqb u (lit "username")) eqn:E; [|discriminate].
  apply bytes_eqb_eq in E. subst u. cbn [answer]. rewrite castp_refl. intros [= <-]. auto.
Qed.

Lemma scram_app_looks e name z :
  looks_up (server_scram e name) (lit "username") z (Some (scram_app_stored e)).
Proof.
  intros tr c [Hu _]. split; [apply scram_app_polite|].
  cbn. unfold scram_app_cb. rewrite Hu, bytes_eqb_refl. cbn [answer]. rewrite castp_refl.
  reflexivity.
Qed.
Lemma scram_app_misses e name user z : user <> lit "username" ->
  looks_up (server_scram e name) user z None.
Proof.
  intros Hn tr c [Hu _]. split; [apply scram_app_polite|]. left.
  cbn. unfold scram_app_cb. rewrite Hu. destruct (bytes_eqb user (lit "username")) eqn:E; [|reflexivity].
  apply bytes_eqb_eq in E. congruence.
Qed.

(** What the application decides about the client that proved to be "username". *)
Lemma scram_verdict c z : offers_scram c (lit "username") z ->
  scram_app_validate c = inr (verdict_value
    (if may_act z (lit "username") then Accepted (lit "username") else AuthzBad)).
Proof.
  intros [Hu [Hz _]]. unfold scram_app_validate. rewrite Hu, Hz, bytes_eqb_refl.
  destruct (may_act z (lit "username")); reflexivity.
Qed.

Theorem scram_app_sound e name s0 a plus m1 script1 st out1 s1 m2 script2 r out2 s2 x :
  s_mech s0 = XScramS a (Some (SsClientFirst plus)) -> s_val s0 = None -> crypto_ok e ->
  no_zero script1 ->
  step (server_scram e name) s0 (Some m1) script1 = (Ok st, out1, s1) ->
  step (server_scram e name) s1 (Some m2) script2 = (r, out2, s2) ->
  s_val s2 = Some x ->
  exists f two z cn t data,
    client_first_fields m1 f two z (lit "username") cn t /\
    proven e a f z (lit "username") cn (nonce_from e (s_rng s0)) out1 m2 data
      (scram_app_stored e) /\
    ((z = None \/ z = Some (lit "username")) /\ reached s2 (Accepted (lit "username")) \/
     (exists y, z = Some y /\ y <> lit "username") /\ reached s2 AuthzBad).
Proof.
  intros Hm Hv Hc Hz H1 H2 Hx.
  destruct (server_first_any _ _ _ _ _ _ _ _ _ Hm H1) as [evs1 K1].
  assert (N1 : new_events s0 s1 evs1 /\ validations evs1 = []).
  { destruct K1 as [f' [two' [z' [user' [cn' [t' [data' K1]]]]]]]. intuition. }
  destruct N1 as [N1 V1].
  assert (Hv1 : s_val s1 = None).
  { eapply first_unvalidated; [|exact V1]. eapply step_value; [exact Hv|exact H1|exact N1]. }
  destruct (validation_first _ _ _ (s_val s2) Hv1 (ca_step _ _ _ _ _ _ _ _ H2 (ca_nil _ _)))
    as [evs2 [N2 F2]].
  assert (F : first_produced (server_scram e name) (s_trace s1) evs2 (s_val s2)) by (apply F2; reflexivity).
  assert (W : exists c, In (EvValidate c) evs2).
  { destruct (validations evs2) as [|c l] eqn:Ev.
    - rewrite (first_unvalidated _ _ _ _ F Ev) in Hx. discriminate.
    - exists c. apply in_validations. rewrite Ev. left. reflexivity. }
  destruct (server_sound (server_scram e name) _ _ _ _ _ _ _ _ _ _ _ _ _ Hm Hc Hz H1 H2)
    as [evs [f [two [z [user [cn [t [data [sp [N [_ [Hf [_ [_ [Ha [Hn [Hp Hl]]]]]]]]]]]]]]]]].
  { left. destruct W as [c W]. eauto. }
  assert (evs = evs1) as -> by (unfold new_events in *; rewrite N1 in N; apply app_inv_head in N; auto).
  destruct (answers_told _ _ _ _ _ _ _ _ PScramStoredPassword sp (scram_app_polite e name) H1 N1)
    as [tr [c [Hr Hs]]]; [rewrite Ha; left; reflexivity|].
  apply scram_app_answers in Hs. destruct Hs as [Hu ->].
  destruct (Hn c (or_introl (ex_intro _ PScramStoredPassword Hr))) as [Hu' _]. rewrite Hu in Hu'. injection Hu' as <-.
  exists f, two, z, cn, t, data. split; [exact Hf|]. split; [exact Hp|].
  destruct (Hl _ N2) as [[-> _]|[c2 [-> Ho]]]; [destruct W as [? []]|].
  apply first_of_one in F.
  assert (R : reached s2 (if may_act z (lit "username") then Accepted (lit "username") else AuthzBad)).
  { unfold reached. destruct (strip_prefix (lit "SCRAM-") name) eqn:Es.
    - rewrite (with_produces (server_scram e name) (s_trace s1) c2 (scram_app_validate c2) (s_val s2)).
      + rewrite (scram_verdict _ _ Ho). reflexivity.
      + cbn [server_scram with_app e_vcb e_sd]. unfold scram_app_vcb. cbn [sd_mech]. rewrite Es.
        reflexivity.
      + exact F.
    - exfalso. rewrite (ret_produces (server_scram e name) (s_trace s1) c2 None (s_val s2)) in Hx;
        [discriminate| |exact F].
      cbn [server_scram with_app e_vcb e_sd]. unfold scram_app_vcb. cbn [sd_mech]. rewrite Es.
      reflexivity. }
  destruct z as [y|]; cbn [may_act] in R; [|left; auto].
  destruct (bytes_eqb y (lit "username")) eqn:Ey.
  - apply bytes_eqb_eq in Ey. subst y. left. auto.
  - right. split; [|exact R]. exists y. split; [reflexivity|]. intros ->.
    rewrite bytes_eqb_refl in Ey. discriminate.
Qed.

Lemma scram_app_validates e name z :
  validates_user (server_scram e name) (lit "username") z.
Proof.
  intros tr c slot Ho. cbn [server_scram with_app e_vcb e_sd e_vtag]. unfold scram_app_vcb.
  cbn [sd_mech]. destruct (strip_prefix (lit "SCRAM-") name); [|reflexivity].
  cbn [run_validate]. rewrite Nat.eqb_refl, (scram_verdict _ _ Ho). destruct slot; reflexivity.
Qed.

Theorem scram_app_complete ec e name sc ss plus splus input f data rest :
  (forall tr c k, e_cb ec tr (e_sd ec) c k = credentials_cb None (lit "username") (lit "secret")) ->
  name = lit "SCRAM-" ++ rest ->
  s_mech sc = XScramC SHA256 (Some (ScInitial plus)) ->
  s_mech ss = XScramS SHA256 (Some (SsClientFirst splus)) -> s_val ss = None ->
  crypto_ok e -> same_crypto ec e ->
  client_can_bind ec plus f data -> server_can_bind (server_scram e name) f data ->
  legal_flag f -> (f = CbSupportedNotUsed -> splus = false) ->
  exists m1 m2 m3 m4 sc1 sc2 sc3 ss1 ss2,
    step ec sc input [] = (Ok Running, m1, sc1) /\
    step (server_scram e name) ss (Some m1) [] = (Ok Running, m2, ss1) /\
    step ec sc1 (Some m2) [] = (Ok Running, m3, sc2) /\
    step (server_scram e name) ss1 (Some m3) [] = (Ok (Finished true), m4, ss2) /\
    step ec sc2 (Some m4) [] = (Ok (Finished false), [], sc3) /\
    reached ss2 (Accepted (lit "username")).
Proof.
  intros Hcb En Hsc Hss Hv Hc Hs Hcb1 Hcb2 Hf Hy.
  assert (W : forall q, q <> PAuthId -> q <> PPassword -> withholds ec q).
  { intros q N1 N2 tr c. rewrite Hcb. split; [cbn; auto|]. left.
    unfold credentials_cb. cbn [answer]. destruct q; try congruence; reflexivity. }
  destruct (scram_complete ec (server_scram e name) sc ss SHA256 plus splus input f data
    (lit "username") (lit "username") None None (lit "secret") (scram_app_stored e))
    as [m1 [m2 [m3 [m4 [sc1 [sc2 [sc3 [ss1 [ss2 [E1 [E2 [E3 [E4 [E5 [evs [c [N [V O]]]]]]]]]]]]]]]]]];
    try assumption.
  - apply (cred_authid ec None _ (lit "secret") Hcb).
  - reflexivity.
  - reflexivity.
  - apply W; discriminate.
  - reflexivity.
  - discriminate.
  - apply scram_app_looks.
  - split; reflexivity.
  - split; vm_compute; discriminate.
  - right; right. split; [apply W; discriminate|]. split; [apply W; discriminate|].
    apply (cred_password ec None (lit "username") _ Hcb).
  - apply scram_app_validates.
  - exists m1, m2, m3, m4, sc1, sc2, sc3, ss1, ss2. repeat (split; [assumption|]).
    destruct (validation_first _ ss ss2 (s_val ss2) Hv
      (ca_step _ _ _ _ _ _ _ _ E2 (ca_step _ _ _ _ _ _ _ _ E4 (ca_nil _ _)))) as [evs' [N' F]].
    assert (evs' = evs) as -> by (unfold new_events in *; rewrite N in N'; apply app_inv_head in N'; auto).
    destruct (first_of_single _ _ _ _ _ (proj2 F eq_refl) V) as [tr P].
    unfold reached. rewrite (with_produces (server_scram e name) tr c (scram_app_validate c) (s_val ss2)).
    + rewrite (scram_verdict _ _ O). reflexivity.
    + cbn [server_scram with_app e_vcb e_sd]. unfold scram_app_vcb. cbn [sd_mech]. rewrite En.
      reflexivity.
    + exact P.
Qed.

(** Under any other hash the keys the application has do not fit. *)
Theorem scram_app_sha1 e name s plus m f two z cn t data script :
  s_mech s = XScramS SHA1 (Some (SsClientFirst plus)) -> crypto_ok e ->
  client_first_fields m f two z (lit "username") cn t ->
  (f = CbSupportedNotUsed -> plus = false) -> server_can_bind (server_scram e name) f data ->
  exists s', step (server_scram e name) s (Some m) script
               = (Err (EMech MScramPasswordHashInvalid), [], s') /\ s_val s' = s_val s.
Proof.
  intros Hm [Hh _] Hf Hy Hb.
  destruct (unusable_refused _ _ _ _ _ _ _ _ _ _ _ _ _ script Hm Hf Hy Hb
              (scram_app_looks e name z)) as [s' [E [_ [_ V]]]].
  - intros [K _]. cbn in K. rewrite Hh in K. discriminate.
  - eauto.
Qed.

Theorem scram_app_unknown e name s plus a m f two z user cn t data :
  s_mech s = XScramS a (Some (SsClientFirst plus)) -> user <> lit "username" ->
  client_first_fields m f two z user cn t ->
  (f = CbSupportedNotUsed -> plus = false) -> server_can_bind (server_scram e name) f data ->
  exists out s', step (server_scram e name) s (Some m) [] = (Ok Running, out, s').
Proof.
  intros Hm Hu Hf Hy Hb.
  destruct (unknown_user_first _ _ _ _ _ _ _ _ _ _ _ _ Hm Hf Hy Hb (scram_app_misses e name user z Hu))
    as [out [s' [_ [E _]]]]. eauto.
Qed.

(** * client_simple.rs *)

Theorem client_simple_sends e s input user password :
  (forall tr c k, e_cb e tr (e_sd e) c k
     = client_simple_cb (user ++ [chr 10]) (password ++ [chr 10])) ->
  s_mech s = XPlainC -> nul_free user -> nul_free password ->
  exists s', step e s input []
    = (Ok (Finished true), plain_message [] (user ++ [chr 10]) (password ++ [chr 10]), s').
Proof.
  intros Hcb Hm Hu Hp.
  assert (N : forall x, nul_free x -> nul_free (x ++ [chr 10])).
  { intros x Hx Hi. apply in_app_or in Hi. destruct Hi as [Hi|[Hi|[]]]; [auto|discriminate]. }
  assert (E : forall x : bytes, x ++ [chr 10] <> []) by (intros [|b x]; discriminate).
  apply (plain_client_complete e s input None); auto.
  - apply (cred_authid e None _ _ Hcb).
  - apply (cred_password e None _ _ Hcb).
  - apply (cred_no_authzid e None _ _ Hcb eq_refl).
  - discriminate.
Qed.

(** * Mechanism selection *)

Theorem credentials_prefer offered i m :
  client_start (credentials_registry false) false default_prefer offered = Ok (i, m) ->
  first_offered client_simple_order offered m.
Proof.
  intros H. apply default_best in H. destruct H as [l1 [l2 [Er [[n [Hn Hc]] [H1 H2]]]]].
  assert (Ho : forall x, In (d_name x) offered -> In x (credentials_registry false) ->
                 candidate false offered x).
  { intros x Hx Hi. exists (d_name x). split; [exact Hx|].
    cbn in Hi. intuition (subst x; cbn; auto). }
  assert (Hm : In (d_name m) offered).
  { assert (Hi : In m (credentials_registry false)) by (rewrite Er; apply in_or_app; right; left; auto).
    cbn in Hi. destruct Hi as [E|[E|[E|[E|[E|[]]]]]]; rewrite <- E in Hc |- *; cbn in Hc;
      [destruct Hc as [->|[K _]]; [exact Hn|discriminate K]..|subst n; exact Hn|subst n; exact Hn]. }
  assert (L : forall x, In (d_name x) offered -> In x l1 -> d_priority x <= d_priority m).
  { intros x Hx Hi. apply H1; [exact Hi|]. apply Ho; [exact Hx|]. rewrite Er. apply in_or_app; auto. }
  assert (R : forall x, In (d_name x) offered -> In x l2 -> d_priority x < d_priority m).
  { intros x Hx Hi. apply H2; [exact Hi|]. apply Ho; [exact Hx|]. rewrite Er. apply in_or_app.
    right. right. exact Hi. }
  assert (LR : forall x, In (d_name x) offered ->
     (In x l1 -> Nat.leb (d_priority x) (d_priority m) = true) /\
     (In x l2 -> Nat.ltb (d_priority x) (d_priority m) = true)).
  { intros x Hx. split; intros Hi; [apply Nat.leb_le|apply Nat.ltb_lt]; auto. }
  clear H1 H2 Ho L R Hc Hn. unfold first_offered, client_simple_order.
  cbn in Er.
  destruct l1 as [|x1 l1]; [injection Er as <- <-|injection Er as <- Er;
  destruct l1 as [|x2 l1]; [injection Er as <- <-|injection Er as <- Er;
  destruct l1 as [|x3 l1]; [injection Er as <- <-|injection Er as <- Er;
  destruct l1 as [|x4 l1]; [injection Er as <- <-|injection Er as <- Er;
  destruct l1 as [|x5 l1]; [injection Er as <- <-|injection Er as <- Er; destruct l1; discriminate]]]]].
  - exists [DScram SHA256 false], [DScram SHA1 false; DPlain; DLogin].
    split; [reflexivity|]. split; [exact Hm|]. repeat constructor.
    intros K. destruct (LR _ K) as [_ B]. specialize (B (or_introl eq_refl)). discriminate.
  - exists [], [DScram SHA512 false; DScram SHA1 false; DPlain; DLogin].
    split; [reflexivity|]. split; [exact Hm|constructor].
  - exists [DScram SHA256 false; DScram SHA512 false], [DPlain; DLogin].
    split; [reflexivity|]. split; [exact Hm|]. repeat constructor; intros K; destruct (LR _ K) as [A B];
      [assert (Q : _) by (apply A; cbn; auto)|assert (Q : _) by (apply A; cbn; auto)]; discriminate.
  - exists [DScram SHA256 false; DScram SHA512 false; DScram SHA1 false], [DLogin].
    split; [reflexivity|]. split; [exact Hm|]. repeat constructor; intros K; destruct (LR _ K) as [A B];
      assert (Q : _) by (apply A; cbn; auto); discriminate.
  - exists [DScram SHA256 false; DScram SHA512 false; DScram SHA1 false; DPlain], [].
    split; [reflexivity|]. split; [exact Hm|]. repeat constructor; intros K; destruct (LR _ K) as [A B];
      assert (Q : _) by (apply A; cbn; auto); discriminate.
Qed.

(** * Verdicts *)

Lemma verdict_value_inj v w : verdict_value v = verdict_value w -> v = w.
Proof. destruct v, w; cbn; intros H; try discriminate H; try reflexivity. injection H as ->. reflexivity. Qed.
Lemma reached_one s v w : reached s v -> reached s w -> v = w.
Proof. unfold reached. intros A B. rewrite A in B. injection B as B. apply verdict_value_inj, B. Qed.
