(** When there is a message to send (C110). *)
From Verif Require Import Bytes Types World Simple OAuth Scram Gssapi Session.

(** session.rs:477-480 [State::has_sent_message]. *)
Definition announces (st : state) : Prop := st = Running \/ st = Finished true.

(** The sessions that have a form for each of their messages: those of PLAIN, LOGIN servers,
    EXTERNAL and ANONYMOUS servers, SCRAM, and the first messages of OAuth clients. OAUTHBEARER
    servers belong to them as long as no JSON text is empty. The others may have to transmit an
    empty string: LOGIN, EXTERNAL and ANONYMOUS clients that of the application, XOAUTH2 servers
    its error report, GSSAPI what the GSSAPI library made. *)
Definition worded (e : env) (m : mech) : Prop :=
  match m with
  | XPlainC | XPlainS | XLoginS _ | XExternalS | XAnonymousS | XScramC _ _ | XScramS _ _ => True
  | XXOAuth2C st | XOAuthBearerC st => st <> OcWaiting
  | XXOAuth2S st => st = OsErrored
  | XOAuthBearerS _ => forall x, e_json_to e x <> []
  | XLoginC _ | XExternalC | XAnonymousC | XGssapiC _ | XGssapiS _ => False
  end.

(** An OAuth client that has sent its token and waits for the outcome. *)
Definition waits_outcome (m : mech) : Prop := m = XXOAuth2C OcWaiting \/ m = XOAuthBearerC OcWaiting.
