(** Vocabulary for C93: what has to have happened before somebody is validated. *)
From Verif Require Import Bytes Utf8 Types World CallbackSpec Simple OAuth ScramParser Scram Session Spec_Simple Spec_OAuth
  Spec_Wire Spec_Session Spec_ScramText Spec_Scram Spec_Bearer.

(** Step calls that all failed. *)
Inductive failing (e : env) : session -> session -> Prop :=
| fa_nil s : failing e s s
| fa_step s s1 s2 input script r out :
    failing e s s1 -> step e s1 input script = (r, out, s2) -> (forall st, r <> Ok st) -> failing e s s2.

(** In a session that began as [s0], the step on [input] from [s1], in which the application
    observed [evs], asked it to validate [c] - and this is why. *)
Inductive evidence (e : env) (s0 s1 : session) (input : option bytes) (evs : list event) (c : ctx) : Prop :=
(** PLAIN: user name and password were in the message. *)
| by_plain m z a p : s_mech s0 = XPlainS -> input = Some m -> plain_accepts e m z a p ->
    offers_plain c z a p -> evidence e s0 s1 input evs c
(** LOGIN: the user name was the last message that was not refused, the password is this one. *)
| by_login s2 s3 u script out p : s_mech s0 = XLoginS LsNew ->
    calls e s0 s2 -> step e s2 (Some u) script = (Ok Running, out, s3) -> failing e s3 s1 ->
    utf8_text u -> input = Some p -> offers_login c u p -> evidence e s0 s1 input evs c
(** EXTERNAL and ANONYMOUS: the message is text. *)
| by_external z : s_mech s0 = XExternalS -> input = Some z \/ (input = None /\ z = []) -> utf8_text z ->
    offers_only c PAuthzId z -> evidence e s0 s1 input evs c
| by_anonymous t : s_mech s0 = XAnonymousS -> input = Some t \/ (input = None /\ t = []) -> utf8_text t ->
    offers_only c PAnonymousToken t -> evidence e s0 s1 input evs c
(** XOAUTH2 and OAUTHBEARER: the application gave a verdict on user and token of the message. *)
| by_xoauth2 u t v rest : s_mech s0 = XXOAuth2S OsInitial -> input = Some (xoauth2_message u t) ->
    utf8_text u -> utf8_text t -> free (chr 1) u -> offers_xoauth2 c u t ->
    evs = EvRequest PXOAuth2Validate c :: rest -> answers PXOAuth2Validate rest = [v] ->
    evidence e s0 s1 input evs c
| by_oauthbearer m z t pairs v rest : s_mech s0 = XOAuthBearerS OsInitial -> input = Some m ->
    readable m z t pairs -> offers_oauthbearer c z t (others pairs) ->
    evs = EvRequest POAuthBearerValidate c :: rest -> answers POAuthBearerValidate rest = [v] ->
    evidence e s0 s1 input evs c
(** SCRAM: the session's only step before named the user, the application has the keys of that
    user, and the message proves, for the nonce drawn in that step, that its sender has them. *)
| by_scram a plus m1 script out evs1 f two z user cn t data sp m2 cb p64 exts :
    s_mech s0 = XScramS a (Some (SsClientFirst plus)) ->
    step e s0 (Some m1) script = (Ok Running, out, s1) -> new_events s0 s1 evs1 ->
    client_first_fields m1 f two z user cn t -> (f = CbSupportedNotUsed -> plus = false) ->
    flag_data e evs1 f data -> answers PScramStoredPassword evs1 = [sp] ->
    input = Some m2 ->
    authenticates e a cn (nonce_from e (s_rng s0)) (gs2_text f z ++ data) user sp m2 cb p64 exts ->
    offers_scram c user z -> evidence e s0 s1 input evs c.
