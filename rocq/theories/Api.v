(** builder.rs, config.rs, sasl.rs and session.rs:38-166: from the configuration given by the
    application to a session. *)
From Verif Require Import Bytes Types World Session Registry Apps ChannelBindings.

(** callback.rs:22-148 SessionCallback: what an application implements. Simplifications: the
    history an implementation may have kept in itself is the events of the session
    ([list event], as everywhere); [prefer] and [enable_channel_binding] answer the same
    whenever they are asked. *)
Record callback := mk_callback {
  ca_callback : list event -> sdata -> ctx -> reqkind -> cbprog;
  ca_validate : list event -> sdata -> ctx -> vprog;
  ca_prefer : preference;
  ca_enable_channel_binding : bool }.

(** callback.rs:78-148: the provided methods, for [impl SessionCallback for X {}]. *)
Definition default_callback : callback :=
  mk_callback default_cb (fun _ _ _ => VRet None) default_prefer false.

(** config.rs:171-176 Inner. *)
Record config := mk_config {
  cf_cb : bool;
  cf_callback : callback;
  cf_mechanisms : list mechanism }.

(** config.rs:189-200 Inner::new and 102-109 SASLConfig::new. *)
Definition config_new (c : callback) (mechanisms : list mechanism) : config :=
  mk_config false c mechanisms.

(** builder.rs:77-90 ConfigBuilder in its first stage and 133-137 in its second. *)
Inductive want_mechanisms := WantMechanisms.
Record want_callback := WantCallback { wc_mechanisms : list mechanism }.
(** builder.rs:95-99, config.rs:113-115. *)
Definition builder_new : want_mechanisms := WantMechanisms.
(** builder.rs:103-109. *)
Definition with_defaults (_ : want_mechanisms) : want_callback := WantCallback builtin_registry.
(** builder.rs:113-117. *)
Definition with_registry (_ : want_mechanisms) (r : list mechanism) : want_callback :=
  WantCallback r.
(** builder.rs:124-126. *)
Definition with_default_mechanisms (b : want_mechanisms) : want_callback :=
  with_registry b builtin_registry.
(** builder.rs:128-130. *)
Definition with_credentials_mechanisms (b : want_mechanisms) (authzid : bool) : want_callback :=
  with_registry b (credentials_registry authzid).
(** builder.rs:140-145. *)
Definition with_callback (b : want_callback) (c : callback) : config :=
  config_new c (wc_mechanisms b).

(** config.rs:130-167 with_credentials. *)
Definition config_with_credentials (authzid : option bytes) (authid password : bytes) : config :=
  with_callback
    (with_credentials_mechanisms builder_new (match authzid with Some _ => true | None => false end))
    (mk_callback (fun _ _ _ _ => credentials_cb authzid authid password) (fun _ _ _ => VRet None)
       default_prefer false).

(** config.rs:211-220 ConfigInstance::select. *)
Definition config_select (c : config) (cb : bool) (offered : list bytes)
  : res sasl_err (inst * mechanism) :=
  registry_select (cf_mechanisms c) (cb || cf_cb c) offered (ca_prefer (cf_callback c)).

(** config.rs:59-65 SASLConfig::select_mechanism. *)
Definition select_mechanism (c : config) (offered : list bytes) : res sasl_err (inst * mechanism) :=
  config_select c (ca_enable_channel_binding (cf_callback c)) offered.

(** sasl.rs:27-31 Sasl. [sa_tag] stands for the type parameter V. *)
Record sasl := mk_sasl {
  sa_config : config;
  sa_chan : bytes -> option bytes;
  sa_tag : nat;
  sa_validation : option bytes }.

(** sasl.rs:167-173 with_cb, also reached by SASLClient::with_cb and SASLServer::with_cb. *)
Definition sasl_with_cb (c : config) (cb : bytes -> option bytes) (tag : nat) : sasl :=
  mk_sasl c cb tag None.
(** sasl.rs:149-164 client and server, by SASLClient::new and SASLServer::new. *)
Definition sasl_new (c : config) (tag : nat) : sasl := mk_sasl c no_channel_bindings tag None.

(** session.rs:40-45 Session. The events and the position in the random stream are those of the
    world (see [Session.session]). *)
Record psession := mk_psession {
  ps_sasl : sasl;
  ps_side : side;
  ps_mechanism : inst;
  ps_desc : mechanism;
  ps_trace : list event;
  ps_rng : nat }.

(** session.rs:48-60 Session::new. *)
Definition psession_new (s : sasl) (sd : side) (i : inst) (d : mechanism) : psession :=
  mk_psession s sd i d [] 0.

(** sasl.rs:175-181 client_start_suggested (90-107: start_suggested and start_suggested_iter). *)
Definition client_start_suggested (s : sasl) (offered : list bytes) : res sasl_err psession :=
  match select_mechanism (sa_config s) offered with
  | Ok (i, d) => Ok (psession_new s SClient i d)
  | Err x => Err x
  | Panic => Panic
  end.

(** sasl.rs:183-193 server_start_suggested (139-141: start_suggested). *)
Definition server_start_suggested (s : sasl) (selected : bytes) : res sasl_err psession :=
  match server_start (cf_mechanisms (sa_config s)) selected with
  | Ok (i, d) => Ok (psession_new s SServer i d)
  | Err x => Err x
  | Panic => Panic
  end.

(** session.rs:77-79. *)
Definition ps_first (p : psession) : bool := are_we_first (ps_side p) (ps_desc p).
(** session.rs:82-84. *)
Definition get_mechname (p : psession) : bytes := d_name (ps_desc p).

(** session.rs:127-134, 249-262: what [MechanismData] is made of, in surroundings [e] (random numbers,
    cryptography, JSON and GSS-API). session.rs:266-271, 420-433 SessionData: the description and the side. *)
Definition ps_env (e : env) (p : psession) : env :=
  let s := ps_sasl p in
  let c := cf_callback (sa_config s) in
  mk_env (mk_sdata (d_name (ps_desc p)) (ps_side p)) (ca_callback c) (ca_validate c) (sa_tag s)
    (sa_chan s) (e_rng e) (e_hash e) (e_hmac e) (e_pbkdf2 e) (e_saslprep e) (e_json_to e)
    (e_json_from e) (e_gss_name e) (e_gss_cred e) (e_gss_step e) (e_gss_complete e)
    (e_gss_flags e) (e_gss_wrap e) (e_gss_unwrap e).

(** session.rs:121-144 Session::step; None: a mechanism of another crate (see Custom.v). *)
Definition ps_step (e : env) (p : psession) (input : option bytes) (script : list wresp)
  : option (res serr state * bytes * psession) :=
  match ps_mechanism p with
  | Builtin m =>
      let s := ps_sasl p in
      match step (ps_env e p) (mk_session m (ps_trace p) (ps_rng p) (sa_validation s)) input script with
      | (r, out, s') =>
          Some (r, out,
            mk_psession (mk_sasl (sa_config s) (sa_chan s) (sa_tag s) (s_val s')) (ps_side p)
              (Builtin (s_mech s')) (ps_desc p) (s_trace s') (s_rng s'))
      end
  | Foreign _ => None
  end.

(** session.rs:159-161 Session::validation. *)
Definition ps_validation (p : psession) : option bytes := sa_validation (ps_sasl p).
