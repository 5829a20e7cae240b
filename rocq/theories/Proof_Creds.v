(** Lemmas for C96. *)
From Coq Require Import NArith Lia.
From Verif Require Import Bytes BytesFacts Utf8 Types World CallbackSpec Num Simple OAuth ScramParser Scram Gssapi Session Registry Apps Interop
  Spec_Simple Spec_OAuth Spec_ScramText Spec_Scram Spec_Registry Spec_Order Spec_History Spec_Talk Spec_Creds
  Proof_Registry Proof_Order Proof_Simple Proof_ScramText Proof_ScramMain Proof_Credentials Proof_Apps Proof_Interop.

Section creds.
Context (e1 e2 : env) (sa : application) (z : option bytes) (a p : bytes).
Local Notation ec m := (session_env e1 (credentials_client z a p) SClient m).
Local Notation es m := (session_env e2 sa SServer m).
Definition done (m : mechanism) (mc ms : mech) : Prop :=
  exists c s evs x, completes (ec m) (es m) m (new_session mc) (new_session ms) c s /\
    new_events (new_session ms) s evs /\ validations evs = [x] /\ shows m x z a p.
Lemma env_cb m tr sd c k : e_cb (ec m) tr sd c k = credentials_cb z a p.
Proof. reflexivity. Qed.
Lemma env_authzid m : answers_with (ec m) PAuthzId z.
Proof.
  pose proof (fun tr c k => env_cb m tr (e_sd (ec m)) c k) as H. revert H. generalize (ec m) as e. intros e H.
  destruct z as [x|]; cbn [answers_with].
  - apply (cred_authzid e (Some x) a p); [exact H|reflexivity].
  - apply (cred_no_authzid e None a p); [exact H|reflexivity].
Qed.
Lemma env_authid m : provides (ec m) PAuthId a.
Proof. apply (cred_authid (ec m) z a p). intros. apply env_cb. Qed.
Lemma env_password m : provides (ec m) PPassword p.
Proof. apply (cred_password (ec m) z a p). intros. apply env_cb. Qed.
Lemma env_withholds m q : q <> PAuthId -> q <> PPassword -> q <> PAuthzId -> withholds (ec m) q.
Proof.
  intros N1 N2 N3 tr x. rewrite env_cb. split; [unfold credentials_cb; destruct z; cbn; auto|]. left.
  unfold credentials_cb. cbn [answer]. destruct z; destruct q; try congruence; reflexivity.
Qed.
Lemma escape_name x : carried_name e2 x -> escape x = Ok x.
Proof.
  intros [(N & _ & Z & _) [C E]]. destruct (escape x) as [y|y|] eqn:K.
  - f_equal. exact (escape_plain _ _ K C E).
  - exfalso. assert (escape x = Ok (flat_map escape_char x)) by (apply escape_flat; auto). congruence.
  - destruct (Proof_Scram.escape_not_panic _ K).
Qed.

Lemma plain_done : (forall x, z = Some x -> carried_name e2 x) -> carried_name e2 a -> carried e2 p ->
  has_user (es DPlain) DPlain z a p -> done DPlain XPlainC XPlainS.
Proof.
  intros Hz [(Na & Va & Za & Pa) _] (Np & Vp & Zp & Pp) [_ App].
  set (zt := match z with Some x => x | None => [] end).
  assert (Nz : nul_free zt). { unfold zt. destruct z as [x|]; [apply (Hz _ eq_refl)|intros []]. }
  assert (Vz : utf8_valid zt = true). { unfold zt. destruct z as [x|]; [apply (Hz _ eq_refl)|reflexivity]. }
  destruct (plain_client_complete (ec DPlain) (new_session XPlainC) None z a p) as [c1 E1]; auto.
  { apply env_authid. } { apply env_password. } { apply env_authzid. }
  { intros x Ex. apply (Hz _ Ex). }
  change (step (ec DPlain) (new_session XPlainC) None [] = (Ok (Finished true), plain_message zt a p, c1)) in E1.
  assert (Acc : plain_accepts (es DPlain) (plain_message zt a p) zt a p).
  { exists a, p. split; [reflexivity|]. split.
    - unfold plain_message. rewrite !app_length. cbn [length]. rewrite app_length. cbn [length].
      destruct a; [congruence|]. destruct p; [congruence|]. cbn [length]. lia.
    - repeat (split; [assumption|]). unfold prepared_password. rewrite Vp. exact Pp. }
  destruct (step (es DPlain) (new_session XPlainS) (Some (plain_message zt a p)) []) as [[r out] s1] eqn:E2.
  destruct (plain_server_exact _ _ _ _ _ _ _ (eq_refl : s_mech (new_session XPlainS) = XPlainS) E2)
    as [-> [[z' [a' [q [ctx [A [N [O V]]]]]]]|[No _]]]; [|exfalso; exact (No _ _ _ Acc)].
  assert (z' = zt /\ a' = a /\ q = p) as [-> [-> ->]].
  { destruct A as [a0 [p0 [Em [_ [Z [Na' [_ [_ [_ [[Pa' _] Pq]]]]]]]]]].
    apply plain_message_inj in Em; [|assumption..]. destruct Em as [<- [<- <-]].
    unfold prepared_password in Pq. rewrite Vp in Pq. destruct Pa as [Pa _], Pp as [Pp _], Pq as [Pq _].
    change (e_saslprep (es DPlain)) with (e_saslprep e2) in *. repeat split; congruence. }
  assert (r = Ok (Finished false)) as ->.
  { apply (validated_ok _ _ _ _ _ _ _ _ E2 N V). intros tr slot. apply App. exact O. }
  exists c1, s1, [EvValidate ctx], ctx. split.
  - exists 0, SClient, None, (new_session XPlainC), (new_session XPlainS), (plain_message zt a p), c1, s1.
    split; [apply (talk_start _ _ DPlain)|]. split; [exact E1|]. split; [exact E2|split; reflexivity].
  - split; [exact N|]. split; [reflexivity|exact O].
Qed.

Lemma login_done : carried_name e2 a -> carried e2 p -> has_user (es DLogin) DLogin z a p ->
  done DLogin (XLoginC LcAuthid) (XLoginS LsNew).
Proof.
  intros [(_ & Va & _) _] _ [_ App].
  destruct (login_exchange (ec DLogin) (es DLogin) (new_session (XLoginC LcAuthid)) (new_session (XLoginS LsNew)) a p eq_refl eq_refl
    (env_authid _) (env_password _) Va None (Some (lit "User Name" ++ [nul])) (Some (lit "Password" ++ [nul])))
    as [s1 [s2 [c1 [c2 [E1 [E2 [E3 [E4 [E5 _]]]]]]]]].
  specialize (E3 _ (idle_stop _ _)).
  destruct (step (es DLogin) s2 (Some p) []) as [[r out] s3] eqn:E6.
  destruct (E5 _ _ _ _ (idle_stop _ _) E6) as [x [N [O [-> [V _]]]]].
  assert (r = Ok (Finished false)) as ->.
  { apply (validated_ok _ _ _ _ _ _ _ _ E6 N V). intros tr slot. apply App. exact O. }
  exists c2, s3, [EvValidate x], x. split.
  - exists 3, SClient, (Some (lit "Password" ++ [nul])), c1, s2, p, c2, s3. split.
    + eapply talk_server; [|exact E3]. eapply talk_client; [|exact E2]. eapply talk_server; [|exact E1].
      apply (talk_start _ _ DLogin).
    + split; [exact E4|]. split; [exact E6|split; reflexivity].
  - split; [exact N|]. split; [reflexivity|exact O].
Qed.

Lemma scram_done g plus : crypto_ok e2 -> same_crypto e1 e2 ->
  (forall x, z = Some x -> carried_name e2 x) -> carried_name e2 a ->
  has_user (es (DScram g false)) (DScram g false) z a p ->
  done (DScram g false) (XScramC g (Some (ScInitial ClientNoSupport))) (XScramS g (Some (SsClientFirst plus))).
Proof.
  intros C SC Hz Ha [St App]. destruct (St g false eq_refl) as (sp & L & S & I).
  set (m := DScram g false) in *.
  destruct (scram_complete (ec m) (es m) (new_session (XScramC g (Some (ScInitial ClientNoSupport))))
    (new_session (XScramS g (Some (SsClientFirst plus)))) g ClientNoSupport plus None CbNotSupported [] a a z z p sp)
    as (m1 & m2 & m3 & m4 & c1 & c2 & c3 & s1 & s2 & E1 & E2 & E3 & E4 & E5 & evs & x & N & V & O);
    [reflexivity|reflexivity|exact C|exact SC|..].
  - split; reflexivity.
  - reflexivity.
  - exact Logic.I.
  - discriminate.
  - apply env_authid.
  - apply escape_name. exact Ha.
  - apply Ha.
  - apply env_authzid.
  - unfold escaped. destruct z as [x|]; [|exact Logic.I]. apply escape_name. apply Hz. reflexivity.
  - intros x Ex. apply (Hz _ Ex).
  - exact L.
  - exact S.
  - exact I.
  - right. right. split; [apply env_withholds; discriminate|]. split; [apply env_withholds; discriminate|]. apply env_password.
  - intros tr c slot Ho. apply App. exact Ho.
  - exists c3, s2, evs, x. split; [|split; [exact N|split; [exact V|exact O]]].
    exists 3, SServer, (Some m3), c2, s1, m4, s2, c3. split.
    + eapply talk_client; [|exact E3]. eapply talk_server; [|exact E2]. eapply talk_client; [|exact E1].
      apply (talk_start _ _ m).
    + split; [exact E4|]. split; [exact E5|split; reflexivity].
Qed.
End creds.

Theorem credentials_work e1 e2 sa z a p offered :
  crypto_ok e2 -> same_crypto e1 e2 ->
  (forall x, z = Some x -> carried_name e2 x) -> carried_name e2 a -> carried e2 p ->
  Forall is_builtin (ap_registry sa) ->
  (forall n, In n offered -> exists m, In m (get_available (ap_registry sa)) /\ d_name m = n) ->
  (forall m, In m (credentials_order (given z)) -> In (d_name m) offered ->
     has_user (session_env e2 sa SServer m) m z a p) ->
  (exists m, In m (credentials_order (given z)) /\ In (d_name m) offered) ->
  exists m mc ms,
    client_start (ap_registry (credentials_client z a p)) false default_prefer offered = Ok (Builtin mc, m) /\
    server_start (ap_registry sa) (d_name m) = Ok (Builtin ms, m) /\
    exists c s evs x,
      completes (session_env e1 (credentials_client z a p) SClient m) (session_env e2 sa SServer m) m
        (new_session mc) (new_session ms) c s /\
      new_events (new_session ms) s evs /\ validations evs = [x] /\ shows m x z a p.
Proof.
  intros C SC Hz Ha Hp B Off U (m0 & I0 & O0).
  pose proof (credentials_choice (given z) offered) as K.
  change (ap_registry (credentials_client z a p)) with (credentials_registry (given z)).
  destruct (client_start (credentials_registry (given z)) false default_prefer offered) as [[i m]|x|] eqn:E;
    [|destruct (K _ I0 O0)|destruct K].
  destruct K as (Om & F & l1 & l2 & Eo & _).
  assert (Im : In m (credentials_order (given z))) by (rewrite Eo; apply in_or_app; right; left; reflexivity).
  assert (Hs : exists ms, fresh_server (ap_registry sa) m (Builtin ms) /\ server_start (ap_registry sa) (d_name m) = Ok (Builtin ms, m)).
  { destruct (Off _ Om) as (m' & A & En). unfold get_available in A. apply filter_In in A. destruct A as [A D].
    assert (Bm : is_builtin m).
    { unfold credentials_order in Im. cbn in Im. destruct (given z); cbn in Im; intuition (subst; exact Logic.I). }
    destruct (server_exact (ap_registry sa) (d_name m)) as (S1 & S2 & S3).
    destruct (server_start (ap_registry sa) (d_name m)) as [[j d]|x|] eqn:Es.
    - destruct (proj1 (S1 j d) eq_refl) as ((k1 & k2 & Er & Ed & _) & Fs).
      assert (d = m) as ->.
      { apply names_distinct; [|exact Bm|exact Ed]. rewrite Forall_forall in B. apply B. rewrite Er. apply in_or_app. right; left; reflexivity. }
      clear - Fs Bm. destruct Fs; try (eexists; split; [constructor; assumption|reflexivity]); try (eexists; split; [constructor|reflexivity]).
      + exact H.
      + destruct Bm.
    - exfalso. destruct x. apply (proj1 S2 eq_refl m' A D En).
    - destruct (S3 eq_refl). }
  destruct Hs as (ms & Fs & Es). pose proof (start_inv _ _ _ _ _ _ E) as (_ & _ & _ & _ & Sc). cbn [andb] in Sc.
  specialize (U _ Im Om).
  assert (D : exists mc, i = Builtin mc /\ done e1 e2 sa z a p m mc ms).
  { unfold credentials_order in Im. cbn [In] in Im.
    destruct Im as [<-|[<-|[<-|[<-|Im]]]].
    1-3: rewrite (Sc _ eq_refl); inversion Fs; subst; eexists; (split; [reflexivity|]); apply scram_done; assumption.
    - inversion F; subst. inversion Fs; subst. eexists. split; [reflexivity|]. apply plain_done; assumption.
    - destruct (given z); [destruct Im|]. destruct Im as [<-|[]].
      inversion F; subst. inversion Fs; subst. eexists. split; [reflexivity|]. apply login_done; assumption. }
  destruct D as (mc & -> & c & s & evs & x & D).
  exists m, mc, ms. split; [reflexivity|]. split; [exact Es|]. exists c, s, evs, x. exact D.
Qed.
