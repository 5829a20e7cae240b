(** Specification vocabulary for messages read by more than one mechanism. *)
From Verif Require Import Bytes Types World CallbackSpec Simple OAuth Scram Gssapi Session.

(** The mechanisms whose first message has a format of its own. *)
Inductive format := FPlain | FXOAuth2 | FOAuthBearer | FScram.

(** A server session of the mechanism that waits for its first message. *)
Inductive waiting : format -> session -> Prop :=
| wt_plain s : s_mech s = XPlainS -> waiting FPlain s
| wt_xoauth2 s : s_mech s = XXOAuth2S OsInitial -> waiting FXOAuth2 s
| wt_oauthbearer s : s_mech s = XOAuthBearerS OsInitial -> waiting FOAuthBearer s
| wt_scram s a plus : s_mech s = XScramS a (Some (SsClientFirst plus)) -> waiting FScram s.

(** A server of the mechanism takes the message: it involves the application. *)
Definition takes (k : format) (m : bytes) : Prop :=
  exists e s script r out s', waiting k s /\ step e s (Some m) script = (r, out, s') /\ s_trace s' <> s_trace s.

(** No server of another mechanism takes it. *)
Definition only (k : format) (m : bytes) : Prop := forall k', takes k' m -> k' = k.
