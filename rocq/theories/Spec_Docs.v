(** Specification vocabulary for what mechanisms/mod.rs documents about the mechanisms'
    requests (C67). *)
From Verif Require Import Bytes Types World Simple OAuth Scram Gssapi Session Spec_History.

(** [requests m p l]: [m] may ask the application for [p], with a context that answers [l].
    mechanisms/mod.rs documents all but LOGIN, the XOAUTH2 client and the SCRAM server; for
    SCRAM it leaves out the two replacements of the password. *)
Inductive requests : mech -> prop -> list prop -> Prop :=
| rq_plain p : In p [PAuthzId; PAuthId; PPassword] -> requests XPlainC p []
| rq_login s p : In p [PAuthId; PPassword] -> requests (XLoginC s) p []
| rq_external : requests XExternalC PAuthzId []
| rq_anonymous : requests XAnonymousC PAnonymousToken []
| rq_xoauth2_client s p : In p [PAuthId; POAuthBearerToken] -> requests (XXOAuth2C s) p []
| rq_xoauth2_server s :
    requests (XXOAuth2S s) PXOAuth2Validate [PAuthId; POAuthBearerToken]
| rq_oauthbearer_client s p : In p [PAuthzId; POAuthBearerKV; POAuthBearerToken] ->
    requests (XOAuthBearerC s) p []
| rq_oauthbearer_server s :
    requests (XOAuthBearerS s) POAuthBearerValidate [PAuthzId; POAuthBearerToken; POAuthBearerKV]
| rq_scram_client a s p : In p [PAuthzId; PAuthId; POverrideCBType] ->
    requests (XScramC a s) p []
| rq_scram_client_cb a s : requests (XScramC a s) PChannelBindings [PChannelBindingName]
| rq_scram_client_keys a s p : In p [PScramCachedPassword; PSaltedPassword; PPassword] ->
    requests (XScramC a s) p [PSalt; PIterations]
| rq_scram_server_cb a s :
    requests (XScramS a s) PChannelBindings [PChannelBindingName; PAuthId; PAuthzId]
| rq_scram_server_keys a s : requests (XScramS a s) PScramStoredPassword [PAuthId; PAuthzId]
| rq_gssapi_client s p : In p [PGssService; PHostname; PGssSecurityLayer] ->
    requests (XGssapiC s) p []
| rq_gssapi_server s : requests (XGssapiS s) PGssSecurityLayer [].

(** [acts m p l]: [m] may tell the application about [p], with a context that answers [l]. *)
Inductive acts : mech -> prop -> list prop -> Prop :=
| ac_xoauth2 s : acts (XXOAuth2C s) PXOAuth2Error []
| ac_oauthbearer s : acts (XOAuthBearerC s) POAuthBearerErrored []
| ac_scram a s : acts (XScramC a s) PScramCachedPassword [PSalt; PIterations].

(** The mechanisms that use channel bindings. *)
Definition binds_channel (m : mech) : Prop :=
  match m with XScramC _ _ | XScramS _ _ => True | _ => False end.

(** [c] answers exactly the properties [l], but possibly not AuthzId (see C48). *)
Definition answering (c : ctx) (l : list prop) : Prop :=
  (forall q, get_ref c q <> None -> In q l) /\
  (forall q, In q l -> q <> PAuthzId -> get_ref c q <> None).

(** An event as documented for [m]. *)
Definition documented (m : mech) (ev : event) : Prop :=
  match ev with
  | EvRequest p c => exists l, requests m p l /\ answering c l
  | EvAnswer p _ | EvClosure p => exists l, requests m p l
  | EvAction p _ c => exists l, acts m p l /\ answering c l
  | EvTaken p => exists l, acts m p l
  | EvValidate c => exists l, answered_by m l /\ answering c l
  | EvChan _ => binds_channel m
  end.

(** The properties a successful step in the given state asks for and announces, in order: one
    of these sequences. *)
Definition plans (m : mech) : list (list prop) :=
  match m with
  | XPlainC => [[PAuthzId; PAuthId; PPassword]]
  | XLoginC LcAuthid => [[PAuthId]]
  | XLoginC LcPassword => [[PPassword]]
  | XExternalC => [[PAuthzId]]
  | XAnonymousC => [[PAnonymousToken]]
  | XXOAuth2C OcInitial => [[PAuthId; POAuthBearerToken]]
  | XXOAuth2C OcWaiting => [[]; [PXOAuth2Error]]
  | XXOAuth2S OsInitial => [[PXOAuth2Validate]]
  | XOAuthBearerC OcInitial => [[PAuthzId; POAuthBearerKV; POAuthBearerToken]]
  | XOAuthBearerC OcWaiting => [[]; [POAuthBearerErrored]]
  | XOAuthBearerS OsInitial => [[POAuthBearerValidate]]
  | XScramC _ (Some (ScInitial Supported)) =>
      [[POverrideCBType; PAuthzId; PAuthId];
       [POverrideCBType; PChannelBindings; PAuthzId; PAuthId];
       [POverrideCBType; PChannelBindings; PChannelBindings; PAuthzId; PAuthId]]
  | XScramC _ (Some (ScInitial _)) => [[PAuthzId; PAuthId]]
  | XScramC _ (Some (ScClientFirst _)) =>
      [[PScramCachedPassword]; [PScramCachedPassword; PSaltedPassword];
       [PScramCachedPassword; PSaltedPassword; PPassword]]
  | XScramC _ (Some (ScServerFirst _)) => [[PScramCachedPassword]]
  | XScramS _ (Some (SsClientFirst _)) =>
      [[PScramStoredPassword]; [PChannelBindings; PScramStoredPassword]]
  | XGssapiC GcInitial =>
      [[PGssService; PHostname]; [PGssService; PHostname; PGssSecurityLayer]]
  | XGssapiC (GcPending _) => [[]; [PGssSecurityLayer]]
  | XGssapiS GsInitial | XGssapiS (GsPending _) => [[]; [PGssSecurityLayer]]
  | _ => [[]]
  end.
