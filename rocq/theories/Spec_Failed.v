(** Specification vocabulary for sessions after a failed step. *)
From Verif Require Import Bytes Types World CallbackSpec Simple OAuth Scram Gssapi Session Spec_Session Spec_History.

(** The session is over: whatever is called from now on, nothing is written, the application
    sees nothing and every step fails. session.rs:98-102 allows a panic as well. *)
Definition over (s : session) : Prop :=
  forall e s' input script, calls e s s' ->
    s_trace s' = s_trace s /\ s_val s' = s_val s /\ has_security_layer s' = false /\
    exists r s'', step e s' input script = (r, [], s'') /\ (r = Err EMechanismDone \/ r = Panic).

(** A server session that has sent the client a report of the application's refusal. *)
Definition reported (m : mech) : Prop := m = XXOAuth2S OsErrored \/ m = XOAuthBearerS OsErrored.

Definition is_client_gssapi (m : mech) : Prop :=
  match m with XGssapiC _ => True | _ => False end.

(** One message after the other, each of them refused with an error. *)
Inductive refuses (e : env) : session -> list bytes -> session -> Prop :=
| rf_none s : refuses e s [] s
| rf_one s p ps script x out s1 s2 :
    step e s (Some p) script = (Err x, out, s1) -> refuses e s1 ps s2 -> refuses e s (p :: ps) s2.

Definition stateless_server (m : mech) : Prop :=
  match m with XPlainS | XExternalS | XAnonymousS => True | _ => False end.
