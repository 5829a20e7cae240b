(** channel_bindings.rs: the channel binding callbacks that come with the crate. *)
From Verif Require Import Bytes.

(** channel_bindings.rs:15-21 NoChannelBindings, what SASLClient::new and SASLServer::new use
    (sasl.rs:148-165). *)
Definition no_channel_bindings (cbname : bytes) : option bytes := None.

(** channel_bindings.rs:23-41 ThisCb: one name, one value. *)
Definition this_cb (name value cbname : bytes) : option bytes :=
  if bytes_eqb name cbname then Some value else None.
