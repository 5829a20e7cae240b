(** Specification vocabulary for what the errors of a session mean (C69). *)
From Verif Require Import Bytes Base64 Utf8 Num Types World CallbackSpec Simple OAuth ScramParser Scram Gssapi Session
  Registry Spec_Registry Spec_Order Spec_History.

(** error.rs:10-23 MechanismErrorKind. *)
Inductive errkind := KParse | KProtocol | KOutcome.

(** [MechanismError::kind]: scram/client.rs:519-527, scram/server.rs:56-60, scram/parser.rs:23-27,
    gssapi/properties.rs:21-25, plain/mechinfo.rs:57-61, login/server.rs:18-22,
    external/server.rs:13-17, anonymous/server.rs:13-17, xoauth2/client.rs:39-43,
    xoauth2/server.rs:38-42, oauthbearer/properties.rs:23-27. *)
Definition kind (k : mecherr) : errkind :=
  match k with
  | MScramProtocol _ => KProtocol
  | MScramServerError _ => KOutcome
  | MGss | MGssBadFinalToken | MGssBadContext => KProtocol
  | MPlain _ | MLoginUtf8 | MExternalUtf8 | MAnonymousUtf8 | MXOAuth2NotUtf8
  | MXOAuth2InvalidFormat | MOAuthBearerParse _ | MOAuthBearerSerde | MScramParse _
  | MScramPasswordHashInvalid | MScramChannelBindingsNotUsed | MSaslName _ => KParse
  end.

(** error.rs:117-120 is_missing_prop. *)
Definition is_missing_prop (x : serr) : bool :=
  match x with ECbNoCallback _ => true | _ => false end.

(** The callback [p] comes up with the error [x] itself: it ends with [x] although none of the
    calls it made returned [x], or a closure it passed to [satisfy_with] returns [x]. *)
Fixpoint originates (p : cbprog) (x : serr) : Prop :=
  match p with
  | CRet r => r = Some x
  | CSatisfy _ _ k => exists r, r <> Some x /\ originates (k r) x
  | CSatisfyWith _ c k => c = inl x \/ exists r, r <> Some x /\ originates (k r) x
  | CGetAction _ k => exists o, originates (k o) x
  | CIs _ k => exists b, originates (k b) x
  end.

(** Among the events [evs], observed after [tr], is a request or an announcement to which the
    application comes up with [x]. *)
Definition app_returns (e : env) (tr evs : list event) (x : serr) : Prop :=
  exists evs1 evs2 q c,
    (evs = evs1 ++ EvRequest q c :: evs2 /\
       originates (e_cb e (tr ++ evs1) (e_sd e) c (RSatisfy q)) x) \/
    (exists v, evs = evs1 ++ EvAction q v c :: evs2 /\
       originates (e_cb e (tr ++ evs1) (e_sd e) c (RAction q)) x).

(** Among the events is a request for [q] that was not answered: an error-propagating callback
    had no value for it. *)
Definition unanswered (e : env) (tr evs : list event) (q : prop) : Prop :=
  exists evs1 evs2 c, evs = evs1 ++ EvRequest q c :: evs2 /\
    (bubbling (e_cb e (tr ++ evs1) (e_sd e) c (RSatisfy q)) -> forall v,
     answer q (e_cb e (tr ++ evs1) (e_sd e) c (RSatisfy q)) <> inr v).

(** The last event is an announcement of [q] that the application did not take note of. *)
Definition unheard (evs : list event) (q : prop) : Prop :=
  exists evs1 v c, evs = evs1 ++ [EvAction q v c].

(** The writer reported an error. *)
Definition writer_failed (script : list wresp) (y : ioerr) : Prop :=
  match y with
  | IoWriteZero => In (WAccept 0) script
  | IoOther n => In (WFail n) script \/ n = 0 /\ In WInterrupt script
  end.

(** The mechanism has finished, or failed before. *)
Definition over (m : mech) : Prop :=
  match m with
  | XLoginC LcDone | XLoginS LsDone | XXOAuth2C OcDone | XOAuthBearerC OcDone
  | XScramS _ (Some SsFinished) | XGssapiC (GcCompleted _) | XGssapiC GcErrored
  | XGssapiS (GsDone _) | XGssapiS GsErrored => True
  | _ => False
  end.

(** [reports e m input script k]: in this state, on this input, [m] may report [k]. *)
Inductive reports (e : env) (script : list wresp) : mech -> option bytes -> mecherr -> Prop :=
| rp_plain_client i x : In x [PlEmpty; PlContainsNull] -> reports e script XPlainC i (MPlain x)
| rp_plain_server i x : In x [PlBadFormat; PlBadAuthzid; PlBadAuthcid; PlSaslprep; PlEmpty] ->
    reports e script XPlainS (Some i) (MPlain x)
| rp_login i : from_utf8 i = None -> reports e script (XLoginS LsUser) (Some i) MLoginUtf8
| rp_external i : from_utf8 i = None -> reports e script XExternalS (Some i) MExternalUtf8
| rp_anonymous i : from_utf8 i = None -> reports e script XAnonymousS (Some i) MAnonymousUtf8
| rp_xoauth2_client i : from_utf8 i = None ->
    reports e script (XXOAuth2C OcWaiting) (Some i) MXOAuth2NotUtf8
| rp_xoauth2_server i x : xoauth2_parse i = Err x ->
    reports e script (XXOAuth2S OsInitial) (Some i) x
| rp_oauthbearer_client i : e_json_from e i = None ->
    reports e script (XOAuthBearerC OcWaiting) (Some i) MOAuthBearerSerde
| rp_oauthbearer_server i x : ob_parse i = Err x ->
    reports e script (XOAuthBearerS OsInitial) (Some i) (MOAuthBearerParse x)
| rp_oauthbearer_json i y : writer_failed script y ->
    reports e script (XOAuthBearerS OsInitial) (Some i) MOAuthBearerSerde
| rp_scram_name a plus i name x : escape name = Err x ->
    reports e script (XScramC a (Some (ScInitial plus))) i (MSaslName x)
| rp_scram_first a s i x : server_first_parse i = Err x ->
    reports e script (XScramC a (Some (ScClientFirst s))) (Some i) (MScramParse x)
| rp_scram_iter a s i sf : server_first_parse i = Ok sf -> from_utf8 (sf_iterations sf) = None ->
    reports e script (XScramC a (Some (ScClientFirst s))) (Some i) (MScramParse PeBadUtf8)
| rp_scram_first_sem a s i sf x : server_first_parse i = Ok sf ->
    match x with
    | PrInvalidNonce => forall n, n <> [] -> sf_nonce sf <> ws_nonce s ++ n
    | PrIterationCountFormat => parse_u32 (sf_iterations sf) = None
    | PrIterationCountZero => parse_u32 (sf_iterations sf) = Some 0%N
    | PrBase64Decode => decode (sf_salt sf) = None
    end ->
    reports e script (XScramC a (Some (ScClientFirst s))) (Some i) (MScramProtocol x)
| rp_scram_final a s i x : server_final_parse i = Err x ->
    reports e script (XScramC a (Some (ScServerFirst s))) (Some i) (MScramParse x)
| rp_scram_final_sem a s i v : server_final_parse i = Ok (SfVerifier v) -> decode v = None ->
    reports e script (XScramC a (Some (ScServerFirst s))) (Some i) (MScramProtocol PrBase64Decode)
| rp_scram_outcome a s i x : server_final_parse i = Ok (SfError x) ->
    reports e script (XScramC a (Some (ScServerFirst s))) (Some i) (MScramServerError x)
| rp_server_first a plus i x : client_first_parse i = Err x ->
    reports e script (XScramS a (Some (SsClientFirst plus))) (Some i) (MScramParse x)
| rp_server_unused a i cf : client_first_parse i = Ok cf -> cf_cbflag cf = CbSupportedNotUsed ->
    reports e script (XScramS a (Some (SsClientFirst true))) (Some i) MScramChannelBindingsNotUsed
| rp_server_hash a plus i cf : client_first_parse i = Ok cf ->
    reports e script (XScramS a (Some (SsClientFirst plus))) (Some i) MScramPasswordHashInvalid
| rp_server_final a d i x : client_final_parse i = Err x ->
    reports e script (XScramS a (Some (SsClientFinal d))) (Some i) (MScramParse x)
| rp_server_final_sem a d i cl : client_final_parse i = Ok cl ->
    decode (cl_cb cl) = None \/ decode_slice (cl_proof cl) (hlen a) = None ->
    reports e script (XScramS a (Some (SsClientFinal (Some d)))) (Some i)
      (MScramProtocol PrBase64Decode)
| rp_gssapi_client s i x : In x [MGss; MGssBadFinalToken; MGssBadContext] ->
    reports e script (XGssapiC s) i x
| rp_gssapi_server s i x : In x [MGss; MGssBadFinalToken; MGssBadContext] ->
    reports e script (XGssapiS s) i x.

(** [cause e m input script tr evs x]: a step of [m] on [input], with the writer answering as
    in [script], after the events [tr] and causing the events [evs], has reason to report [x]. *)
Inductive cause (e : env) (m : mech) (input : option bytes) (script : list wresp)
    (tr evs : list event) : serr -> Prop :=
| ca_app x : app_returns e tr evs x -> x <> ECbEarlyReturn -> cause e m input script tr evs x
| ca_writer y : writer_failed script y -> cause e m input script tr evs (EIo y)
| ca_input : input = None -> cause e m input script tr evs EInputDataRequired
| ca_done : over m -> cause e m input script tr evs EMechanismDone
| ca_no_token st c i : m = XGssapiS st -> st = GsInitial /\ c = [GAccept] \/ st = GsPending c ->
    input = Some i -> e_gss_step e c (Some i) = Some None ->
    e_gss_complete e (c ++ [GStep (Some i)]) = false ->
    cause e m input script tr evs EMechanismDone
| ca_mech k : reports e script m input k -> cause e m input script tr evs (EMech k)
| ca_missing q : unanswered e tr evs q -> cause e m input script tr evs (ECbNoCallback q)
| ca_unheard q : unheard evs q -> cause e m input script tr evs (ECbNoCallback q)
| ca_invalid evs1 c v slot : evs = evs1 ++ [EvValidate c] ->
    fst (run_validate (e_vtag e) (e_vcb e (tr ++ evs1) (e_sd e) c) slot) = Some v ->
    cause e m input script tr evs (EValidation v)
| ca_mutual a s i v64 v : m = XScramC a (Some (ScServerFirst s)) -> input = Some i ->
    server_final_parse i = Ok (SfVerifier v64) -> decode v64 = Some v -> v <> wf_verifier s ->
    cause e m input script tr evs EMutualAuthenticationFailed
| ca_channel name : In (EvChan name) evs -> e_chan e name = None ->
    unanswered e tr evs PChannelBindings ->
    cause e m input script tr evs (EMissingChannelBindingData name).

(** Some callback of the application comes up with [x]. *)
Definition invents (e : env) (x : serr) : Prop :=
  exists tr c k, originates (e_cb e tr (e_sd e) c k) x.

(** error.rs:47-64: errors that only the application's own code can bring into a step: those of
    step64, encode and decode, those about validation that no mechanism reports, and the
    unspecific ones. *)
Definition foreign_error (x : serr) : Prop :=
  match x with EBase64 | ENoSecurityLayer | ENoValidate | EBoxed _ | ECbNoValue => True | _ => False end.

(** The message received, if there is one, is well-formed. *)
Definition syntax_ok (m : mech) (i : bytes) : Prop :=
  match m with
  | XOAuthBearerS _ => exists x, ob_parse i = Ok x
  | XScramC _ (Some (ScClientFirst _)) => exists x, server_first_parse i = Ok x
  | XScramC _ (Some (ScServerFirst _)) => exists x, server_final_parse i = Ok x
  | XScramS _ (Some (SsClientFirst _)) => exists x, client_first_parse i = Ok x
  | XScramS _ (Some (SsClientFinal _)) => exists x, client_final_parse i = Ok x
  | _ => False
  end.

(** The same implementation, in whatever states. *)
Definition same_impl (m n : mech) : Prop :=
  match m, n with
  | XPlainC, XPlainC | XPlainS, XPlainS | XLoginC _, XLoginC _ | XLoginS _, XLoginS _
  | XExternalC, XExternalC | XExternalS, XExternalS | XAnonymousC, XAnonymousC
  | XAnonymousS, XAnonymousS | XXOAuth2C _, XXOAuth2C _ | XXOAuth2S _, XXOAuth2S _
  | XOAuthBearerC _, XOAuthBearerC _ | XOAuthBearerS _, XOAuthBearerS _
  | XGssapiC _, XGssapiC _ | XGssapiS _, XGssapiS _ => True
  | XScramC a _, XScramC b _ | XScramS a _, XScramS b _ => a = b
  | _, _ => False
  end.
