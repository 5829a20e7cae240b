(** C125: an empty authorization identity and none. *)
From Verif Require Import Bytes Utf8 Types World CallbackSpec Simple OAuth ScramParser Scram Session Registry Apps Interop
  Spec_Simple Spec_OAuth Spec_Scram Spec_Registry Spec_Order Spec_Creds Spec_Decline Spec_Authzid Spec_Flow ExampleEnv
  Proof_Simple Proof_OAuth Proof_Scram Proof_ScramRun Proof_Authzid Proof_Blind.

(** A user with a password and a token, with this authorization identity. *)
Definition ex_id (z : option bytes) : env :=
  ex_env (fun k => ex_cb (match k with
                          | RSatisfy PAuthzId => match z with Some z => [mk_entry PAuthzId z] | None => [] end
                          | _ => [mk_entry PAuthId (lit "user"); mk_entry PPassword (lit "secret");
                                  mk_entry POAuthBearerToken (lit "tok")]
                          end)) no_vcb no_chan.
Lemma ex_id_alike : empty_for_none (ex_id None) (ex_id (Some [])).
Proof.
  split; [|split; [|split]].
  - intros tr c. split; [cbn; auto|left; reflexivity].
  - intros tr c. split; [cbn; auto|reflexivity].
  - reflexivity.
  - intros tr tr' sd c k N. destruct k as [[]|]; congruence || reflexivity.
Qed.

(** C125 is false as stated, in two ways: the OAUTHBEARER client sends another message for the empty
    identity, the SCRAM client sends none and fails. *)
Theorem C125_client_refuted : forall m, m = DOAuthBearer \/ (exists a, m = DScram a false) ->
  ~ forall e e' i s input, fresh_client m (Builtin i) -> s_mech s = i -> empty_for_none e e' ->
      fst (step e' s input []) = fst (step e s input []).
Proof.
  intros m Hm H.
  pose proof ex_id_alike as R.
  destruct Hm as [->|[a ->]].
  - specialize (H _ _ _ (new_session (XOAuthBearerC OcInitial)) None fc_oauthbearer eq_refl R). vm_compute in H. discriminate.
  - assert (N : ClientNoSupport <> Supported) by discriminate.
    specialize (H _ _ _ (new_session (XScramC a (Some (ScInitial ClientNoSupport)))) None (fc_scram a _ N) eq_refl R).
    destruct a; vm_compute in H; discriminate.
Qed.
Print Assumptions C125_client_refuted.

(** C125 for the other clients: PLAIN and EXTERNAL send the same, the others do not ask. It makes no
    difference in any step. Missing for the full property: OAUTHBEARER and SCRAM. *)
Theorem C125_client_partial : forall e e' s l, empty_for_none e e' -> no_mark (s_mech s) ->
  dialogue e' s l = dialogue e s l.
Proof. intros e e' s l H Hn. apply dialogue_unmarked; auto. Qed.
Print Assumptions C125_client_partial.

Example C125_client_example :
  empty_for_none (ex_id None) (ex_id (Some [])) /\
  dialogue (ex_id (Some [])) (new_session XPlainC) [(None, [])]
  = [(Ok (Finished true), chr 0 :: lit "user" ++ chr 0 :: lit "secret")] /\
  dialogue (ex_id (Some (lit "root"))) (new_session XPlainC) [(None, [])]
  = [(Ok (Finished true), lit "root" ++ chr 0 :: lit "user" ++ chr 0 :: lit "secret")] /\
  dialogue (ex_id (Some [])) (new_session (XScramC SHA256 (Some (ScInitial ClientNoSupport)))) [(None, [])]
  = [(Err (EMech (MSaslName SnEmpty)), [])].
Proof. split; [exact ex_id_alike|vm_compute; repeat split; reflexivity]. Qed.

(** C125: a SCRAM client with an empty authorization identity sends nothing and fails, with any
    writer; without channel binding the error is the one for empty names. *)
Theorem C125_scram : forall e s a plus input script r out s',
  s_mech s = XScramC a (Some (ScInitial plus)) -> provides e PAuthzId [] ->
  step e s input script = (r, out, s') -> out = [] /\ (exists x, r = Err x) /\
    (plus <> Supported -> r = Err (EMech (MSaslName SnEmpty))).
Proof. exact scram_empty_fails. Qed.
Print Assumptions C125_scram.

(** C125: an OAUTHBEARER client sends the empty identity as such, ... *)
Theorem C125_oauthbearer : forall e s input o kv t,
  s_mech s = XOAuthBearerC OcInitial ->
  answers_with e PAuthzId o -> answers_with e POAuthBearerKV kv -> provides e POAuthBearerToken t ->
  exists s', step e s input [] =
    (Ok Running, oauthbearer_message o (match kv with Some l => l | None => [] end) t, s').
Proof. exact oauthbearer_client_complete. Qed.
Print Assumptions C125_oauthbearer.

(** ... and the server's application is shown an empty identity or none, accordingly. *)
Theorem C125_oauthbearer_server : forall e s kv t script o r out s', o = None \/ o = Some [] ->
  s_mech s = XOAuthBearerS OsInitial -> Forall sendable_pair kv -> free (chr 1) t -> utf8_valid t = true ->
  step e s (Some (oauthbearer_message o kv t)) script = (r, out, s') ->
  exists c rest, s_trace s' = s_trace s ++ EvRequest POAuthBearerValidate c :: rest /\
    (o = None -> identity_absent c) /\ (o = Some [] -> identity_empty c).
Proof.
  intros e s kv t script o r out s' Ho Hm Hk Ht Hu H.
  assert (Hz : sendable_authzid o).
  { destruct Ho as [->| ->]; [exact I|]. split; [intros []|split; [intros []|reflexivity]]. }
  destruct (oauthbearer_server_sees e s o kv t script r out s' Hm Hz Hk Ht Hu H)
    as (evs & N & c & rest & -> & [G _] & _).
  exists c, rest. split; [exact N|]. unfold identity_absent, identity_empty.
  split; intros ->; exact G.
Qed.
Print Assumptions C125_oauthbearer_server.

(** C125 for servers is false: what stands for no identity in the context of the application depends
    on the mechanism. PLAIN and EXTERNAL show the empty text, SCRAM nothing. *)
Theorem C125_server_plain : forall e s a p msg a' p' script r out s',
  s_mech s = XPlainS -> msg = plain_message [] a p -> plain_accepts e msg [] a' p' ->
  step e s (Some msg) script = (r, out, s') ->
  exists c, new_events s s' [EvValidate c] /\ identity_empty c.
Proof.
  intros e s a p msg a' p' script r out s' Hm -> A H.
  destruct (plain_server_exact _ _ _ _ _ _ _ Hm H) as [_ [(z & a1 & p1 & c & B & N & O & _)|[No _]]].
  - exists c. split; [exact N|]. destruct B as (a0 & p0 & E & _ & Fz & _). unfold identity_empty.
    rewrite (proj1 O). destruct z as [|b z]; [reflexivity|]. unfold plain_message in E. cbn in E.
    injection E as E _. subst b. destruct Fz. left. reflexivity.
  - destruct (No _ _ _ A).
Qed.
Print Assumptions C125_server_plain.
Theorem C125_server_external : forall e s input script r out s',
  s_mech s = XExternalS -> input = None \/ input = Some [] -> step e s input script = (r, out, s') ->
  exists c, new_events s s' [EvValidate c] /\ identity_empty c.
Proof.
  intros e s input script r out s' Hm Hi H.
  destruct (external_server_exact _ _ _ _ _ _ _ Hm H) as [_ K].
  assert (E : unwrap_or_empty input = []) by (destruct Hi as [->| ->]; reflexivity). rewrite E in K.
  change (utf8_valid []) with true in K. destruct K as (c & N & O & _). exists c. split; [exact N|apply O].
Qed.
Print Assumptions C125_server_external.
Theorem C125_server_scram : forall e s a plus m f two user cn t script r out s',
  s_mech s = XScramS a (Some (SsClientFirst plus)) -> client_first_fields m f two None user cn t ->
  step e s (Some m) script = (r, out, s') ->
  exists evs, new_events s s' evs /\ forall c, (exists q, In (EvRequest q c) evs) -> identity_absent c.
Proof.
  intros e s a plus m f two user cn t script r out s' Hm Hf H.
  destruct (scram_server_identity _ _ _ _ _ _ _ _ _ _ _ _ _ _ _ Hm Hf H) as (evs & N & C).
  exists evs. split; [exact N|]. intros c Hc. apply C. left. exact Hc.
Qed.
Print Assumptions C125_server_scram.
Theorem C125_server_refuted : forall shown, shown = identity_absent \/ shown = identity_empty ->
  ~ ((forall e s s' script r out c,
        s_mech s = XExternalS -> step e s (Some []) script = (r, out, s') ->
        new_events s s' [EvValidate c] -> shown c) /\
     (forall e s s' kv t script r out q c rest,
        s_mech s = XOAuthBearerS OsInitial ->
        step e s (Some (oauthbearer_message None kv t)) script = (r, out, s') ->
        new_events s s' (EvRequest q c :: rest) -> shown c)).
Proof.
  intros shown Hs [Ext Oa].
  specialize (Ext (ex_id None) (new_session XExternalS) _ [] _ _ [mk_entry PAuthzId []] eq_refl eq_refl eq_refl).
  specialize (Oa (ex_id None) (new_session (XOAuthBearerS OsInitial)) _ [] (lit "tok") [] _ _ POAuthBearerValidate
    (oauthbearer_provider (mk_obmsg None (lit "Bearer tok") [])) [] eq_refl eq_refl).
  destruct Hs as [->| ->]; [discriminate Ext|].
  assert (K : identity_empty (oauthbearer_provider (mk_obmsg None (lit "Bearer tok") [])))
    by (apply Oa; vm_compute; reflexivity).
  discriminate K.
Qed.
Print Assumptions C125_server_refuted.

Lemma ex_id_fields : client_first_fields (lit "n,,n=user,r=abc") CbNotSupported (lit "a=") None (lit "user") (lit "abc") [].
Proof.
  destruct (parse_fields (lit "n,,n=user,r=abc") (mk_cf CbNotSupported None (lit "user") (lit "abc")) eq_refl)
    as (two & t & F). cbn [cf_cbflag cf_authzid cf_username cf_nonce] in F.
  assert (t = []) as ->.
  { destruct F as [E _]. cbn in E. injection E as E. symmetry. exact E. }
  destruct F as (A & _ & B). split; [exact A|]. split; [reflexivity|exact B].
Qed.
Example C125_server_example :
  s_trace (snd (step (ex_id None) (new_session XPlainS) (Some (plain_message [] (lit "user") (lit "secret"))) []))
  = [EvValidate (plain_provider (lit "user") [] (lit "secret"))] /\
  plain_accepts (ex_id None) (plain_message [] (lit "user") (lit "secret")) [] (lit "user") (lit "secret") /\
  client_first_fields (lit "n,,n=user,r=abc") CbNotSupported (lit "a=") None (lit "user") (lit "abc") [].
Proof.
  split; [vm_compute; reflexivity|]. split; [|exact ex_id_fields].
  destruct (step (ex_id None) (new_session XPlainS) (Some (plain_message [] (lit "user") (lit "secret"))) [])
    as [[r out] s'] eqn:E.
  exists (lit "user"), (lit "secret"). split; [reflexivity|].
  assert (N : forall x, forallb (fun b => negb (Ascii.eqb b nul)) x = true -> nul_free x).
  { intros x H I. rewrite forallb_forall in H. specialize (H _ I). rewrite Ascii.eqb_refl in H. discriminate. }
  split; [vm_compute; repeat constructor|]. repeat (split; [apply N; reflexivity|]).
  repeat (split; [reflexivity|]). split; [split; [reflexivity|discriminate]|split; [reflexivity|discriminate]].
Qed.

(** C125, what it comes to: with SASLConfig::with_credentials and the identity Some("") the client
    takes SCRAM from any server that offers it, without sending anything, and fails. *)
Theorem C125_with_credentials : forall e a p offered m mc,
  client_start (ap_registry (credentials_client (Some []) a p)) false default_prefer offered = Ok (Builtin mc, m) ->
  m <> DPlain ->
  forall input script r out s',
  step (session_env e (credentials_client (Some []) a p) SClient m) (new_session mc) input script = (r, out, s') ->
  out = [] /\ r = Err (EMech (MSaslName SnEmpty)).
Proof. exact credentials_empty. Qed.
Print Assumptions C125_with_credentials.

Example C125_with_credentials_example :
  client_start (ap_registry (credentials_client (Some []) (lit "user") (lit "secret"))) false default_prefer
    [lit "PLAIN"; lit "SCRAM-SHA-1"]
  = Ok (Builtin (XScramC SHA1 (Some (ScInitial ClientNoSupport))), DScram SHA1 false).
Proof. vm_compute. reflexivity. Qed.
