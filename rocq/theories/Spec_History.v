(** Specification vocabulary for whole histories of a session. *)
From Verif Require Import Bytes Types World CallbackSpec Simple OAuth Scram Gssapi Session Registry
  Spec_Simple Spec_Wire.

(** Any number of step calls with any input, whatever their results; [n] of them returned
    Running. *)
Inductive history (e : env) (s : session) : nat -> session -> Prop :=
| history_start : history e s 0 s
| history_running n s1 input script out s2 :
    history e s n s1 -> step e s1 input script = (Ok Running, out, s2) -> history e s (S n) s2
| history_other n s1 input script r out s2 :
    history e s n s1 -> step e s1 input script = (r, out, s2) -> r <> Ok Running ->
    history e s n s2.

(** Any number of step calls that all returned Running. *)
Inductive ongoing (e : env) (s : session) : session -> Prop :=
| ongoing_start : ongoing e s s
| ongoing_step s1 input script out s2 :
    ongoing e s s1 -> step e s1 input script = (Ok Running, out, s2) -> ongoing e s s2.

Definition is_gssapi (m : mech) : Prop :=
  match m with XGssapiC _ | XGssapiS _ => True | _ => False end.
Definition is_scram (m : mech) : Prop :=
  match m with XScramC _ _ | XScramS _ _ => True | _ => False end.

(** Mechanisms that remember being done. *)
Definition remembers_done (m : mech) : Prop :=
  match m with
  | XLoginC _ | XLoginS _ | XXOAuth2C _ | XOAuthBearerC _ | XGssapiC _ | XGssapiS _ => True
  | _ => False
  end.

(** A context handed to the application for validation. *)
Definition validation_context (evs : list event) (c : ctx) : Prop :=
  In (EvValidate c) evs \/ In (EvRequest PXOAuth2Validate c) evs \/
  In (EvRequest POAuthBearerValidate c) evs.

(** The properties such a context is documented to answer, per mechanism. *)
Inductive answered_by : mech -> list prop -> Prop :=
| ab_plain : answered_by XPlainS [PAuthId; PPassword; PAuthzId]
| ab_login s : answered_by (XLoginS s) [PAuthId; PPassword]
| ab_external : answered_by XExternalS [PAuthzId]
| ab_anonymous : answered_by XAnonymousS [PAnonymousToken]
| ab_xoauth2 s : answered_by (XXOAuth2S s) [PAuthId; POAuthBearerToken]
| ab_oauthbearer s :
    answered_by (XOAuthBearerS s) [PAuthzId; POAuthBearerToken; POAuthBearerKV]
| ab_scram a s : answered_by (XScramS a s) [PAuthId; PAuthzId].

(** The mechanisms that leave an absent authorization identity out. *)
Definition omits_authzid (m : mech) : Prop :=
  match m with XOAuthBearerS _ | XScramS _ _ => True | _ => False end.

(** ** Text (C66) *)

(** A context handed to the application, on whichever occasion. *)
Definition shown (evs : list event) (c : ctx) : Prop :=
  In (EvValidate c) evs \/ (exists p, In (EvRequest p c) evs) \/
  (exists p v, In (EvAction p v c) evs).

(** What Rust hands out as [&str] is UTF-8. Passwords are byte strings. *)
Definition textual (c : ctx) : Prop :=
  (forall x : bytes, get_ref c PAuthId = Some x -> utf8_text x) /\
  (forall x : bytes, get_ref c PAuthzId = Some x -> utf8_text x) /\
  (forall x : bytes, get_ref c PAnonymousToken = Some x -> utf8_text x) /\
  (forall x : bytes, get_ref c POAuthBearerToken = Some x -> utf8_text x) /\
  (forall kv : list (bytes * bytes), get_ref c POAuthBearerKV = Some kv ->
     forall k v, In (k, v) kv -> utf8_text k /\ utf8_text v).

(** The saslprep crate maps strings to strings. *)
Definition prepares_text (e : env) : Prop :=
  forall x y, utf8_text x -> e_saslprep e x = Some y -> utf8_text y.
