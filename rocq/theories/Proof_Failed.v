(** Lemmas about sessions after a failed step. *)
From Coq Require Import Lia.
From Verif Require Import Bytes Base64 Types World CallbackSpec WorldFacts MonadFacts Simple OAuth ScramParser Scram
  Gssapi Session Registry Frame Triple Spec_Simple Spec_Registry Spec_Session Spec_History Spec_Failed Proof_Simple
  Proof_Registry Proof_Session Proof_History.
Open Scope m_scope.

(** * Sessions that are over *)

Definition dead (m : mech) : bool :=
  match m with
  | XScramC _ None | XScramS _ None | XLoginC LcDone | XLoginS LsDone | XXOAuth2C OcDone | XOAuthBearerC OcDone
  | XGssapiC GcErrored | XGssapiS GsErrored => true
  | _ => false
  end.

Lemma dead_step e s input script : dead (s_mech s) = true ->
  exists r, step e s input script = (r, [], s) /\ (r = Err EMechanismDone \/ r = Panic).
Proof.
  destruct s as [m tr rng v]. cbn [s_mech]. intros D.
  destruct m as [| |[]|[]| | | | |[]|[]|[]|[]|a [|]|a [|]|[]|[]]; try discriminate D; (eexists; split; [reflexivity|auto]).
Qed.
Lemma dead_layer e s : dead (s_mech s) = true -> layerless e s.
Proof.
  intros D. apply layer_false.
  destruct (s_mech s) as [| |[]|[]| | | | |[]|[]|[]|[]|a [|]|a [|]|[]|[]]; try discriminate D; reflexivity.
Qed.
Lemma dead_over s : dead (s_mech s) = true -> over s.
Proof.
  intros D e s' input script H.
  assert (E : s' = s).
  { induction H as [s|s b c i sc r o E H IH|s b c i sc r o E H IH|s b c i sc r o E H IH]; [reflexivity| | |].
    - destruct (dead_step e s i sc D) as (r' & E' & _). rewrite E' in E. injection E as _ _ <-. auto.
    - destruct (dead_layer e s D) as [_ L]. rewrite (proj1 (L i sc)) in E. injection E as _ _ <-. auto.
    - destruct (dead_layer e s D) as [_ L]. rewrite (proj2 (L i sc)) in E. injection E as _ _ <-. auto. }
  subst s'. destruct (dead_layer e s D) as [L _]. destruct (dead_step e s input script D) as (r & E & R).
  repeat split; try exact L. exists r, s. auto.
Qed.

(** * The mechanisms other than GSSAPI *)

(** What a failing step leaves behind. *)
Definition left (m0 m : mech) : Prop := m = m0 \/ dead m = true \/ reported m.
Definition leaves {L} (wrap : L -> mech) (l0 : L) (X : mech -> Prop) (m : M L state) : Prop :=
  forall n0, triple (at_ l0 n0) (fun _ _ _ => True) (fun l _ => X (wrap l)) m.

Ltac tidy := cbv beta; unfold left, reported; cbn [dead]; auto 6.
Ltac go :=
  lazymatch goal with
  | |- triple _ _ _ (ret _) => apply fwd_ret; exact I
  | |- triple _ _ _ (fail _) => apply fwd_fail; tidy
  | |- triple _ _ _ panic => apply fwd_panic; tidy
  | |- triple _ _ _ gss_err => apply fwd_fail; tidy
  | |- triple _ _ _ (bind getl _) => apply fwd_getl
  | |- triple _ _ _ (bind (setl _) _) => apply fwd_setl
  | |- triple _ _ _ (bind (validate _ _) _) => apply fwd_validate; [tidy|]
  | |- triple _ _ _ (match ?x with _ => _ end) => destruct x
  | |- triple _ _ _ (let (_, _) := ?x in _) => destruct x
  | |- triple _ _ _ (bind _ _) => apply fwd_still; [solve [repeat still_step]|tidy|intros ?]
  end.

Lemma left_plain_c e i : leaves (fun _ => XPlainC) tt (left XPlainC) (plain_client_step e i).
Proof. intros n0. unfold plain_client_step. repeat go. Qed.
Lemma left_plain_s e i : leaves (fun _ => XPlainS) tt (left XPlainS) (plain_server_step e i).
Proof. intros n0. unfold plain_server_step. repeat go. Qed.
Lemma left_login_c e i l : leaves XLoginC l (left (XLoginC l)) (login_client_step e i).
Proof. intros n0. unfold login_client_step. go. destruct l; repeat go. Qed.
Lemma left_login_s e i l : leaves XLoginS l (left (XLoginS l)) (login_server_step e i).
Proof. intros n0. unfold login_server_step. go. destruct l; repeat go. Qed.
Lemma left_external_c e i : leaves (fun _ => XExternalC) tt (left XExternalC) (external_client_step e i).
Proof. intros n0. unfold external_client_step. repeat go. Qed.
Lemma left_external_s e i : leaves (fun _ => XExternalS) tt (left XExternalS) (external_server_step e i).
Proof. intros n0. unfold external_server_step. repeat go. Qed.
Lemma left_anonymous_c e i : leaves (fun _ => XAnonymousC) tt (left XAnonymousC) (anonymous_client_step e i).
Proof. intros n0. unfold anonymous_client_step. repeat go. Qed.
Lemma left_anonymous_s e i : leaves (fun _ => XAnonymousS) tt (left XAnonymousS) (anonymous_server_step e i).
Proof. intros n0. unfold anonymous_server_step. repeat go. Qed.
Lemma left_xoauth2_c e i l : leaves XXOAuth2C l (left (XXOAuth2C l)) (xoauth2_client_step e i).
Proof. intros n0. unfold xoauth2_client_step. go. destruct l; repeat go. Qed.
Lemma left_oauthbearer_c e i l : leaves XOAuthBearerC l (left (XOAuthBearerC l)) (oauthbearer_client_step e i).
Proof. intros n0. unfold oauthbearer_client_step. go. destruct l; repeat go. Qed.

Lemma verdict_left wrap e q c n0 (body : pval q -> M oauth_sst state) :
  (wrap = XXOAuth2S \/ wrap = XOAuthBearerS) ->
  (forall v, triple (at_ OsInitial n0) (fun _ _ _ => True) (fun l _ => left (wrap OsInitial) (wrap l)) (body v)) ->
  triple (at_ OsInitial n0) (fun _ _ _ => True) (fun l _ => left (wrap OsInitial) (wrap l))
    (state <- need_with e q c body ;; validate e c ;;; ret state).
Proof.
  intros Hw Hb.
  assert (Hx : forall l, left (wrap OsInitial) (wrap l)).
  { intros l. destruct Hw as [->| ->]; destruct l; tidy. }
  eapply t_bind with (R := fun _ _ _ => True).
  - apply t_need_with; [exact Hb| |]; intros; apply Hx.
  - intros a l w _. unfold bind. destruct (validate e c l w) as [[[u|x|] l1] w1]; [exact I| |]; apply Hx.
Qed.
Lemma left_xoauth2_s e i l : leaves XXOAuth2S l (left (XXOAuth2S l)) (xoauth2_server_step e i).
Proof.
  intros n0. unfold xoauth2_server_step. go. destruct l; [|repeat go].
  destruct i as [i|]; [|repeat go].
  apply fwd_still; [apply still_of_res|tidy|]. intros [a t].
  apply (verdict_left XXOAuth2S); [auto|]. intros v. repeat go.
Qed.
Lemma left_oauthbearer_s e i l : leaves XOAuthBearerS l (left (XOAuthBearerS l)) (oauthbearer_server_step e i).
Proof.
  intros n0. unfold oauthbearer_server_step. go. destruct l; [|repeat go].
  destruct i as [i|]; [|repeat go].
  apply fwd_still; [apply still_of_res|tidy|]. intros m.
  apply (verdict_left XOAuthBearerS); [auto|]. intros v. repeat go.
Qed.
Lemma left_scram_c e a i l : leaves (XScramC a) l (fun m => dead m = true) (scram_client_step e a i).
Proof.
  intros n0. unfold scram_client_step. go. go. destruct l as [[plus|s|s]|].
  - apply fwd_still; [apply still_client_first|reflexivity|]. intros [s l]. repeat go.
  - destruct i as [i|]; [|repeat go].
    apply fwd_still; [apply still_server_first|reflexivity|]. intros s'. repeat go.
  - destruct i as [i|]; [|repeat go].
    apply fwd_still; [apply still_server_final|reflexivity|]. intros s'. repeat go.
  - repeat go.
Qed.
Lemma left_scram_s e a i l : leaves (XScramS a) l (fun m => dead m = true) (scram_server_step e a i).
Proof.
  intros n0. unfold scram_server_step. go. go. destruct l as [[plus|s|]|].
  - destruct i as [i|]; [|repeat go].
    apply fwd_still; [apply still_handle_client_first|reflexivity|]. intros [d l]. repeat go.
  - destruct i as [i|]; [|repeat go].
    eapply t_bind with (R := fun _ _ _ => True).
    + intros l w [-> En].
      pose proof (client_final_count e a s i (@None scram_sst) n0 None w (conj eq_refl En)) as H.
      destruct (handle_client_final e a s i None w) as [[[u|x|] l2] w2]; [exact I| |];
        destruct H as [-> H]; reflexivity.
    + intros [] l w _. exact I.
  - repeat go.
  - repeat go.
Qed.
Lemma left_gssapi_c e i l : leaves XGssapiC l (fun m => dead m = true) (gss_client_step e i).
Proof.
  intros n0. unfold gss_client_step, gss_client_pending, gss_check_acceptable. go. go. destruct l.
  all: repeat go.
Qed.
Lemma left_gssapi_s e i l :
  leaves XGssapiS l (fun m => dead m = true \/ exists c sup, m = XGssapiS (GsInstalled c sup)) (gss_server_step e i).
Proof.
  intros n0. unfold gss_server_step, gss_server_pending, gss_server_installed. go. go. destruct l.
  all: repeat go; try (right; eauto).
Qed.

(** The writer is the only cause of leaving a GSSAPI server's step half done. *)
Definition failing {L A} (l0 : L) (X : serr -> L -> Prop) (m : M L A) : Prop :=
  forall w, match m l0 w with (Err x, l, _) => X x l | _ => True end.
Lemma f_still {L A B} (l0 : L) (X : serr -> L -> Prop) (m : M L A) (f : A -> M L B) :
  still m -> (forall x, X x l0) -> (forall a, failing l0 X (f a)) -> failing l0 X (bind m f).
Proof.
  intros Hm HX Hf w. unfold bind. specialize (Hm l0 w).
  destruct (m l0 w) as [[[a|x|] l1] w1]; destruct Hm as [-> _]; [apply Hf|apply HX|exact I].
Qed.
Lemma f_io {L B} (l0 : L) (X : serr -> L -> Prop) data (f : unit -> M L B) :
  (forall k, X (EIo k) l0) -> (forall a, failing l0 X (f a)) -> failing l0 X (bind (write_all data) f).
Proof.
  intros HX Hf w. unfold bind.
  destruct (write_all_spec data l0 w) as [p [q [w' [_ [_ [[-> _]|[x ->]]]]]]]; [apply Hf|apply HX].
Qed.
Lemma f_getl {L B} (l0 : L) (X : serr -> L -> Prop) (f : L -> M L B) : failing l0 X (f l0) -> failing l0 X (bind getl f).
Proof. intros H. exact H. Qed.
Lemma f_setl {L B} (l0 l1 : L) (X : serr -> L -> Prop) (f : unit -> M L B) : failing l1 X (f tt) -> failing l0 X (bind (setl l1) f).
Proof. intros H. exact H. Qed.
Definition only_io (x : serr) (l : gss_sst) : Prop :=
  forall c sup, l = GsInstalled c sup -> exists k, x = EIo k.
Ltac fgo :=
  lazymatch goal with
  | |- failing _ _ (ret _) => intros ?; exact I
  | |- failing _ _ (fail _) => intros ? ? ? ?; discriminate
  | |- failing _ _ gss_err => intros ? ? ? ?; discriminate
  | |- failing _ _ (bind getl _) => apply f_getl
  | |- failing _ _ (bind (setl _) _) => apply f_setl
  | |- failing _ _ (bind (write_all _) _) =>
      apply f_io; [intros ? ? ? ?; eauto|intros ?]
  | |- failing _ _ (match ?x with _ => _ end) => destruct x
  | |- failing _ _ (bind _ _) => apply f_still; [solve [repeat still_step]|intros ? ? ? ?; discriminate|intros ?]
  end.
Lemma gss_server_io e i l : failing l only_io (gss_server_step e i).
Proof.
  unfold gss_server_step, gss_server_pending, gss_server_installed. fgo. fgo. destruct l; repeat fgo.
Qed.

(** * Sessions *)

Lemma on_left {L} (wrap : L -> mech) l0 X (m : M L state) e s input script x out s' :
  leaves wrap l0 X m -> s_mech s = wrap l0 ->
  (forall w, mech_step e input (s_mech s) w = on wrap l0 m (s_mech s) w) ->
  step e s input script = (Err x, out, s') -> X (s_mech s').
Proof.
  intros Hf Em Hs H. unfold step, run in H. rewrite Hs in H. unfold on in H.
  specialize (Hf (nval (mk_world [] script (s_trace s) (s_rng s) (s_val s))) l0
                 (mk_world [] script (s_trace s) (s_rng s) (s_val s)) (conj eq_refl eq_refl)).
  destruct (m l0 _) as [[[a|y|] l1] w1]; try discriminate H. injection H as _ _ <-. exact Hf.
Qed.
Ltac left_by wrap l L := eapply (on_left wrap l); [apply L|eassumption| |eassumption];
  match goal with E : s_mech _ = _ |- _ => rewrite E; reflexivity end.

(** C94 *)
Theorem scram_over e s input script x out s' :
  is_scram (s_mech s) -> step e s input script = (Err x, out, s') -> over s'.
Proof.
  intros Hs H. apply dead_over. destruct (s_mech s) as [| |l|l| | | | |l|l|l|l|a l|a l|l|l] eqn:E; destruct Hs.
  - left_by (XScramC a) l left_scram_c.
  - left_by (XScramS a) l left_scram_s.
Qed.
Theorem gssapi_client_over e s input script x out s' :
  is_client_gssapi (s_mech s) -> step e s input script = (Err x, out, s') -> over s'.
Proof.
  intros Hs H. apply dead_over. destruct (s_mech s) as [| |l|l| | | | |l|l|l|l|a l|a l|l|l] eqn:E; destruct Hs.
  left_by XGssapiC l left_gssapi_c.
Qed.
Theorem gssapi_server_over e s l input script x out s' :
  s_mech s = XGssapiS l -> step e s input script = (Err x, out, s') ->
  over s' \/ ((exists k, x = EIo k) /\ exists c sup, s_mech s' = XGssapiS (GsInstalled c sup)).
Proof.
  intros E H.
  assert (K : dead (s_mech s') = true \/ exists c sup, s_mech s' = XGssapiS (GsInstalled c sup)).
  { apply (on_left XGssapiS l (fun m => dead m = true \/ exists c sup, m = XGssapiS (GsInstalled c sup))
      (gss_server_step e input) e s input script x out); [apply left_gssapi_s|exact E| |exact H].
    rewrite E. reflexivity. }
  destruct K as [K|(c & sup & K)]; [left; apply dead_over, K|right]. split; [|eauto].
  pose proof (gss_server_io e input l (mk_world [] script (s_trace s) (s_rng s) (s_val s))) as F.
  unfold step, run in H. rewrite E in H. unfold mech_step, bind at 1, getl, on in H.
  destruct (gss_server_step e input l _) as [[[a|y|] l1] w1]; try discriminate H.
  injection H as <- _ <-. cbn [s_mech] in K. injection K as ->. exact (F c sup eq_refl).
Qed.
Theorem failed_left e s input script x out s' :
  ~ is_gssapi (s_mech s) -> ~ is_scram (s_mech s) -> step e s input script = (Err x, out, s') ->
  s_mech s' = s_mech s \/ over s' \/ reported (s_mech s').
Proof.
  intros Hg Hs H.
  enough (K : left (s_mech s) (s_mech s')).
  { destruct K as [K|[K|K]]; auto using dead_over. }
  destruct (s_mech s) as [| |l|l| | | | |l|l|l|l|a l|a l|l|l] eqn:E;
    try (exfalso; apply Hs; exact I); try (exfalso; apply Hg; exact I).
  - left_by (fun _ : unit => XPlainC) tt left_plain_c.
  - left_by (fun _ : unit => XPlainS) tt left_plain_s.
  - left_by XLoginC l left_login_c.
  - left_by XLoginS l left_login_s.
  - left_by (fun _ : unit => XExternalC) tt left_external_c.
  - left_by (fun _ : unit => XExternalS) tt left_external_s.
  - left_by (fun _ : unit => XAnonymousC) tt left_anonymous_c.
  - left_by (fun _ : unit => XAnonymousS) tt left_anonymous_s.
  - left_by XXOAuth2C l left_xoauth2_c.
  - left_by XXOAuth2S l left_xoauth2_s.
  - left_by XOAuthBearerC l left_oauthbearer_c.
  - left_by XOAuthBearerS l left_oauthbearer_s.
Qed.

(** A session that has reported a refusal finishes, whatever comes next. *)
Theorem reported_finishes e s input script :
  reported (s_mech s) -> step e s input script = (Ok (Finished false), [], s).
Proof. destruct s as [m tr g v]. intros [E|E]; cbn [s_mech] in E; subst m; reflexivity. Qed.

(** Passwords can be tried one after another. *)
Lemma login_pass e s u p script : s_mech s = XLoginS (LsPass u) ->
  exists r s', step e s (Some p) script = (r, [], s') /\
    new_events s s' [EvValidate (login_provider u p)] /\
    (r = Ok (Finished false) \/ (exists x, r = Err x) /\ s_mech s' = s_mech s).
Proof.
  destruct s as [m tr g v]. cbn [s_mech]. intros ->.
  unfold step, run. cbn [s_mech]. unfold mech_step, bind at 1, getl, on, login_server_step, bind, getl, validate.
  cbn [s_trace s_rng s_val w_val w_trace]. destruct (run_validate _ _ _) as [[x|] slot];
    (do 2 eexists; split; [reflexivity|]; split; [reflexivity|]); [right; split; [eauto|reflexivity]|left; reflexivity].
Qed.

Theorem login_guesses e s u ps s' : s_mech s = XLoginS (LsPass u) -> refuses e s ps s' ->
  s_mech s' = XLoginS (LsPass u) /\ new_events s s' (map (fun p => EvValidate (login_provider u p)) ps).
Proof.
  intros E H. induction H as [s|s p ps script x out s1 s2 H1 H IH].
  - split; [exact E|]. unfold new_events. cbn. symmetry. apply app_nil_r.
  - destruct (login_pass e s u p script E) as (r & s1' & H1' & N & R). rewrite H1 in H1'.
    injection H1' as <- _ <-. destruct R as [R|[_ R]]; [discriminate R|]. rewrite E in R.
    destruct (IH R) as [E2 N2]. split; [exact E2|].
    unfold new_events in *. rewrite N2, N, <- app_assoc. reflexivity.
Qed.
Theorem stateless_calls e s s' : stateless_server (s_mech s) -> calls e s s' -> s_mech s' = s_mech s.
Proof.
  intros Hs H. induction H as [s|s b c i sc r o E H IH|s b c i sc r o E H IH|s b c i sc r o E H IH]; [reflexivity| | |].
  - assert (K : s_mech b = s_mech s).
    { unfold step, run in E. destruct (s_mech s); destruct Hs; unfold mech_step, bind at 1, getl, on in E;
        match type of E with context [?m tt ?w] => destruct (m tt w) as [[r1 l1] w1] end;
        injection E as _ _ <-; reflexivity. }
    rewrite IH; rewrite K; [reflexivity|exact Hs].
  - assert (L : layerless e s) by (apply layer_false; destruct (s_mech s); destruct Hs; reflexivity).
    destruct L as [_ L]. rewrite (proj1 (L i sc)) in E. injection E as _ _ <-. auto.
  - assert (L : layerless e s) by (apply layer_false; destruct (s_mech s); destruct Hs; reflexivity).
    destruct L as [_ L]. rewrite (proj2 (L i sc)) in E. injection E as _ _ <-. auto.
Qed.
