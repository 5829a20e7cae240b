(** Specification vocabulary for what sessions say (C116). *)
From Verif Require Import Bytes Types World Session Spec_Wire.

(** A value an application answers a request with, where Rust's type for it is [str] or made of
    such: those are UTF-8. Passwords are byte strings; salts, keys and channel bindings are never
    sent as they are. *)
Definition str_value (p : prop) : pval p -> Prop :=
  match p with
  | PAuthId | PAuthzId | PAnonymousToken | POAuthBearerToken | POverrideCBType =>
      fun v : bytes => utf8_text v
  | POAuthBearerKV => fun kv => forall k v, In (k, v) kv -> utf8_text k /\ utf8_text v
  | PXOAuth2Validate => fun r => forall x, r = Some x -> utf8_text x
  | POAuthBearerValidate => fun r => forall o, r = Some o ->
      utf8_text (ob_status o) /\ (forall x, ob_scope o = Some x -> utf8_text x) /\
      (forall x, ob_openid o = Some x -> utf8_text x)
  | _ => fun _ => True
  end.
Definition str_answers (evs : list event) : Prop :=
  forall p v, In (EvAnswer p v) evs -> str_value p v.

(** Every password the application answered with is text. *)
Definition text_passwords (evs : list event) : Prop :=
  forall v : bytes, In (EvAnswer PPassword v) evs -> utf8_text v.

(** serde_json writes text. *)
Definition json_text (e : env) : Prop := forall o,
  str_value POAuthBearerValidate (Some o) -> utf8_text (e_json_to e o).

(** What is needed besides: PLAIN and LOGIN clients send the password, SCRAM clients repeat the
    server's nonce, and OAUTHBEARER servers write what the JSON library gives. GSSAPI's messages
    are binary. *)
Definition says_text (e : env) (m : mech) (input : option bytes) (evs : list event) : Prop :=
  match m with
  | XPlainC | XLoginC _ => text_passwords evs
  | XScramC _ _ => forall i, input = Some i -> utf8_text i
  | XOAuthBearerS _ => json_text e
  | XGssapiC _ | XGssapiS _ => False
  | _ => True
  end.
