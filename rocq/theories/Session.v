(** session.rs: sessions of the built-in mechanisms. *)
From Verif Require Import Bytes Base64 Types World Simple OAuth Scram Gssapi.
Open Scope m_scope.

(** [Box<dyn Authentication>]: one constructor per built-in implementation. *)
Inductive mech :=
| XPlainC | XPlainS
| XLoginC (s : login_cst) | XLoginS (s : login_sst)
| XExternalC | XExternalS
| XAnonymousC | XAnonymousS
| XXOAuth2C (s : oauth_cst) | XXOAuth2S (s : oauth_sst)
| XOAuthBearerC (s : oauth_cst) | XOAuthBearerS (s : oauth_sst)
| XScramC (a : alg) (s : option scram_cst) | XScramS (a : alg) (s : option scram_sst)
| XGssapiC (s : gss_cst) | XGssapiS (s : gss_sst).

(** Dynamic dispatch: run the implementation on its own state. *)
Definition on {L A} (wrap : L -> mech) (l : L) (m : M L A) : M mech A :=
  fun _ w => match m l w with (r, l', w') => (r, wrap l', w') end.

(** [Authentication::step]. *)
Definition mech_step (e : env) (input : option bytes) : M mech state :=
  m <- getl ;;
  match m with
  | XPlainC => on (fun _ => XPlainC) tt (plain_client_step e input)
  | XPlainS => on (fun _ => XPlainS) tt (plain_server_step e input)
  | XLoginC s => on XLoginC s (login_client_step e input)
  | XLoginS s => on XLoginS s (login_server_step e input)
  | XExternalC => on (fun _ => XExternalC) tt (external_client_step e input)
  | XExternalS => on (fun _ => XExternalS) tt (external_server_step e input)
  | XAnonymousC => on (fun _ => XAnonymousC) tt (anonymous_client_step e input)
  | XAnonymousS => on (fun _ => XAnonymousS) tt (anonymous_server_step e input)
  | XXOAuth2C s => on XXOAuth2C s (xoauth2_client_step e input)
  | XXOAuth2S s => on XXOAuth2S s (xoauth2_server_step e input)
  | XOAuthBearerC s => on XOAuthBearerC s (oauthbearer_client_step e input)
  | XOAuthBearerS s => on XOAuthBearerS s (oauthbearer_server_step e input)
  | XScramC a s => on (XScramC a) s (scram_client_step e a input)
  | XScramS a s => on (XScramS a) s (scram_server_step e a input)
  | XGssapiC s => on XGssapiC s (gss_client_step e input)
  | XGssapiS s => on XGssapiS s (gss_server_step e input)
  end.

(** mechanism.rs:84-86 default encode, overridden by GSSAPI only. *)
Definition mech_encode (e : env) (input : bytes) : M mech nat :=
  m <- getl ;;
  match m with
  | XGssapiC s => on XGssapiC s (gss_client_encode e input)
  | XGssapiS s => on XGssapiS s (gss_server_encode e input)
  | _ => fail ENoSecurityLayer
  end.

(** mechanism.rs:106-108 default decode. *)
Definition mech_decode (e : env) (input : bytes) : M mech nat :=
  m <- getl ;;
  match m with
  | XGssapiC s => on XGssapiC s (gss_client_decode e input)
  | XGssapiS s => on XGssapiS s (gss_server_decode e input)
  | _ => fail ENoSecurityLayer
  end.

(** mechanism.rs:111-113 default has_security_layer. *)
Definition mech_has_layer (m : mech) : bool :=
  match m with
  | XGssapiC s => gss_client_layer s
  | XGssapiS s => gss_server_layer s
  | _ => false
  end.

(** session.rs:38-45 Session. The writer is passed to every call; the history of callback
    events and the position in the random stream belong to the world outside and are kept
    here between calls. *)
Record session := mk_session {
  s_mech : mech;
  s_trace : list event;
  s_rng : nat;
  s_val : option bytes }.

(** Result of a session call: outcome, bytes the writer received, session afterwards. *)
Definition run {A} (m : M mech A) (s : session) (script : list wresp)
  : res serr A * bytes * session :=
  match m (s_mech s) (mk_world [] script (s_trace s) (s_rng s) (s_val s)) with
  | (r, mech', w') => (r, w_out w', mk_session mech' (w_trace w') (w_rng w') (w_val w'))
  end.

(** session.rs:121-144 Session::step. *)
Definition step (e : env) (s : session) (input : option bytes) (script : list wresp)
  : res serr state * bytes * session :=
  run (mech_step e input) s script.

(** session.rs:159-161 Session::validation: [take]. *)
Definition validation (s : session) : option bytes * session :=
  (s_val s, mk_session (s_mech s) (s_trace s) (s_rng s) None).

(** session.rs:164-166. *)
Definition has_security_layer (s : session) : bool := mech_has_layer (s_mech s).

(** session.rs:183-189. *)
Definition session_encode (e : env) (s : session) (input : bytes) (script : list wresp)
  : res serr nat * bytes * session := run (mech_encode e input) s script.

(** session.rs:206-212. *)
Definition session_decode (e : env) (s : session) (input : bytes) (script : list wresp)
  : res serr nat * bytes * session := run (mech_decode e input) s script.

(** session.rs:228-245 Session::step64, for a writer that accepts everything. What the step
    writes goes through base64's EncoderWriter, whose buffered rest is flushed when it is
    dropped - also if the step fails. *)
Definition step64 (e : env) (s : session) (input : option bytes)
  : res serr state * bytes * session :=
  match input with
  | Some input =>
      match decode input with
      | None => (Err EBase64, [], s)
      | Some i => match step e s (Some i) [] with
                  | (r, out, s') => (r, encode out, s')
                  end
      end
  | None => match step e s None [] with
            | (r, out, s') => (r, encode out, s')
            end
  end.
