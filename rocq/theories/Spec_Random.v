(** Vocabulary for C82: which random numbers a session uses. *)
From Verif Require Import Bytes Types World Scram Session.

(** The same surroundings with another source of random numbers. *)
Definition set_rng (e : env) (f : nat -> N) : env :=
  mk_env (e_sd e) (e_cb e) (e_vcb e) (e_vtag e) (e_chan e) f (e_hash e) (e_hmac e) (e_pbkdf2 e)
    (e_saslprep e) (e_json_to e) (e_json_from e) (e_gss_name e) (e_gss_cred e) (e_gss_step e)
    (e_gss_complete e) (e_gss_flags e) (e_gss_wrap e) (e_gss_unwrap e).

(** A SCRAM client that has not sent, or a server that has not received its first message. *)
Definition new_scram_client (s : session) : Prop :=
  exists a plus, s_mech s = XScramC a (Some (ScInitial plus)).
Definition new_scram_server (s : session) : Prop :=
  exists a plus, s_mech s = XScramS a (Some (SsClientFirst plus)).
