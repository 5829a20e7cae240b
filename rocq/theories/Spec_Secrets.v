(** One secret, several mechanisms (C128). *)
From Verif Require Import Bytes Utf8 Types World CallbackSpec Simple OAuth Session Registry
  Spec_Simple Spec_OAuth Spec_Names.

(** The context offers [b] as password or as token. *)
Definition secret_in (c : ctx) (b : bytes) : Prop :=
  get_ref c PPassword = Some b \/ get_ref c POAuthBearerToken = Some b.

(** The passwords and tokens the application gave. *)
Definition secrets (evs : list event) : list bytes := answers PPassword evs ++ answers POAuthBearerToken evs.

(** What the applications of clients hand over can be sent: besides [proper_names], OAUTHBEARER's
    separators are not in the values. *)
Definition proper_secrets (m : mechanism) (evs : list event) : Prop :=
  proper_names m evs /\
  (m = DOAuthBearer ->
    (forall z, In z (answers PAuthzId evs) -> sendable_authzid (Some z)) /\
    (forall kv, In kv (answers POAuthBearerKV evs) -> Forall sendable_pair kv) /\
    (forall t, In t (answers POAuthBearerToken evs) -> free (chr 1) t)).

(** What a server shows for the secret [p] of the client: PLAIN prepares text, OAUTHBEARER leaves the
    scheme in front of the token, the mechanisms not named here show no secret. *)
Definition secret_as (es : env) (m : mechanism) (p b : bytes) : Prop :=
  match m with
  | DPlain => prepared_password es p b
  | DLogin | DXOAuth2 => b = p
  | DOAuthBearer => b = lit "Bearer " ++ p
  | _ => False
  end.
