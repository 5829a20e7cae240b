(** C122: sessions are set up as configured. *)
From Verif Require Import Bytes Base64 Types World CallbackSpec Scram Session Registry Apps Api
  ChannelBindings Spec_Session Spec_Registry Spec_Api Spec_Scram ExampleEnv Proof_Api.

(** C122: a client session of a configuration made by the builder runs a fresh client of a
    registered mechanism the server's offers made a candidate, and has no validation result.
    Unless the application enabled channel bindings, the session goes by a name the server
    offered, and no SCRAM client is started for channel bindings. *)
Theorem C122_client : forall c reg cfg chan tag offered p, built c reg cfg ->
  client_start_suggested (sasl_with_cb cfg chan tag) offered = Ok p ->
  ps_side p = SClient /\ In (ps_desc p) reg /\ fresh_client (ps_desc p) (ps_mechanism p) /\
  candidate (ca_enable_channel_binding c) offered (ps_desc p) /\ ps_validation p = None /\
  (ca_enable_channel_binding c = false ->
   In (get_mechname p) offered /\
   forall a, ps_mechanism p <> Builtin (XScramC a (Some (ScInitial Supported)))).
Proof. exact client_set. Qed.
Print Assumptions C122_client.

(** C122: a server session runs a fresh server of the first registered mechanism of the selected
    name, goes by that name, and has no validation result. *)
Theorem C122_server : forall c reg cfg chan tag name p, built c reg cfg ->
  server_start_suggested (sasl_with_cb cfg chan tag) name = Ok p ->
  ps_side p = SServer /\ first_server reg name (ps_desc p) /\
  fresh_server reg (ps_desc p) (ps_mechanism p) /\ get_mechname p = name /\ ps_validation p = None.
Proof. exact server_set. Qed.
Print Assumptions C122_server.

(** C122: callbacks of a client session are told the name of its mechanism and that it is a
    client: an implementation that behaves differently for other names or sides only makes no
    difference to any dialogue and its outcome. *)
Theorem C122_told_client : forall e s offered p c', sa_validation s = None ->
  client_start_suggested s offered = Ok p -> same_choice (cf_callback (sa_config s)) c' ->
  agree (cf_callback (sa_config s)) c' (mk_sdata (get_mechname p) SClient) ->
  client_start_suggested (with_impl s c') offered = Ok (ps_with_impl p c') /\
  forall l, ps_run e (ps_with_impl p c') l =
    option_map (fun x => (fst x, ps_with_impl (snd x) c')) (ps_run e p l).
Proof. exact told_client. Qed.
Print Assumptions C122_told_client.

(** The same for server sessions, where the preference does not matter either. *)
Theorem C122_told_server : forall e s name p c', sa_validation s = None ->
  server_start_suggested s name = Ok p ->
  agree (cf_callback (sa_config s)) c' (mk_sdata (get_mechname p) SServer) ->
  server_start_suggested (with_impl s c') name = Ok (ps_with_impl p c') /\
  forall l, ps_run e (ps_with_impl p c') l =
    option_map (fun x => (fst x, ps_with_impl (snd x) c')) (ps_run e p l).
Proof. exact told_server. Qed.
Print Assumptions C122_told_server.

(** C122: of a client and a server session of the same built-in mechanism exactly one says that
    it goes first. *)
Theorem C122_first : forall s offered s' name p q,
  client_start_suggested s offered = Ok p -> server_start_suggested s' name = Ok q ->
  is_builtin (ps_desc p) -> is_builtin (ps_desc q) -> get_mechname q = get_mechname p ->
  ps_first q = negb (ps_first p).
Proof. exact one_first. Qed.
Print Assumptions C122_first.

(** C122: a client session never has a validation result, whatever the application does. *)
Theorem C122_client_value : forall e s offered p l ds q, sa_validation s = None ->
  client_start_suggested s offered = Ok p -> ps_run e p l = Some (ds, q) ->
  ps_validation q = None.
Proof. exact client_no_value. Qed.
Print Assumptions C122_client_value.

(** C122: no session has a validation result if the application does not implement [validate]. *)
Theorem C122_unvalidated : forall e p l ds q,
  validates_nothing (cf_callback (sa_config (ps_sasl p))) -> ps_validation p = None ->
  ps_run e p l = Some (ds, q) -> ps_validation q = None.
Proof. exact no_value. Qed.
Print Assumptions C122_unvalidated.

(** C122: if the application does not implement [callback], a client finishes only with EXTERNAL
    and ANONYMOUS, with an empty message; every step of any other mechanism fails. *)
Theorem C122_unprovided : forall e s offered p l ds q,
  provides_nothing (cf_callback (sa_config s)) -> client_start_suggested s offered = Ok p ->
  ps_run e p l = Some (ds, q) ->
  (get_mechname p = lit "EXTERNAL" \/ get_mechname p = lit "ANONYMOUS" ->
   Forall (fun x => x = (Ok (Finished true), [])) ds) /\
  (get_mechname p <> lit "EXTERNAL" -> get_mechname p <> lit "ANONYMOUS" ->
   Forall (fun x => forall st, fst x <> Ok st) ds).
Proof. exact nothing_said. Qed.
Print Assumptions C122_unprovided.

(** C122: a validation result is one the application's [validate], told the name and side of the
    session, gave for the validation type of the session. *)
Theorem C122_value : forall e p l ds q x, ps_validation p = None -> ps_run e p l = Some (ds, q) ->
  ps_validation q = Some x ->
  exists tr c cs y,
    vfollows (ca_validate (cf_callback (sa_config (ps_sasl p))) tr
                (mk_sdata (get_mechname p) (ps_side p)) c) cs y /\
    first_final (sa_tag (ps_sasl p)) cs = Some x.
Proof. exact value_from. Qed.
Print Assumptions C122_value.

(** C122: a SCRAM client that claims a channel binding has the data from the channel binding
    callback the session was made with, or, if that has none, from the application. *)
Theorem C122_bound : forall e p a input script st out p',
  ps_mechanism p = Builtin (XScramC a (Some (ScInitial Supported))) ->
  polite (ps_env e p) -> no_zero script -> ps_step e p input script = Some (Ok st, out, p') ->
  exists name data evs rest hdr nonce user,
    ps_trace p' = ps_trace p ++ evs /\ out = lit "p=" ++ name ++ lit "," ++ rest /\
    ps_mechanism p' =
      Builtin (XScramC a (Some (ScClientFirst (mk_wsf (encode (hdr ++ data)) nonce user)))) /\
    (sa_chan (ps_sasl p) name = Some data \/
     (sa_chan (ps_sasl p) name = None /\ answers PChannelBindings evs = [data])).
Proof. exact bound_to. Qed.
Print Assumptions C122_bound.

(** C122: in a session made without a channel binding callback, from the application. *)
Theorem C122_bound_new : forall e cfg tag offered p a input script st out p',
  client_start_suggested (sasl_new cfg tag) offered = Ok p ->
  ps_mechanism p = Builtin (XScramC a (Some (ScInitial Supported))) ->
  polite (ps_env e p) -> no_zero script -> ps_step e p input script = Some (Ok st, out, p') ->
  exists data evs, ps_trace p' = ps_trace p ++ evs /\ answers PChannelBindings evs = [data].
Proof. exact bound_new. Qed.
Print Assumptions C122_bound_new.

(** ** Examples *)

Definition ex_default : sasl := sasl_new (with_callback (with_defaults builder_new) default_callback) 0.
Definition ex_creds_sasl : sasl := sasl_new (config_with_credentials None (lit "user") (lit "pw")) 0.
Definition ex_start (r : res sasl_err psession) : psession :=
  match r with Ok p => p | _ => psession_new ex_default SClient (Builtin XPlainC) DPlain end.
Definition ex_plain_client : psession :=
  ex_start (client_start_suggested ex_creds_sasl [lit "LOGIN"; lit "PLAIN"]).

Example C122_client_example :
  client_start_suggested ex_creds_sasl [lit "LOGIN"; lit "PLAIN"] = Ok ex_plain_client /\
  get_mechname ex_plain_client = lit "PLAIN" /\ ps_first ex_plain_client = true /\
  built default_callback builtin_registry (sa_config ex_default).
Proof. split; [|split; [|split]]; try (vm_compute; reflexivity). constructor. Qed.

(** An implementation that gives the credentials to PLAIN clients only. *)
Definition ex_picky : callback :=
  mk_callback (fun _ sd _ _ =>
      if bytes_eqb (sd_mech sd) (lit "PLAIN") && match sd_side sd with SClient => true | SServer => false end
      then credentials_cb None (lit "user") (lit "pw") else CRet (Some ECbNoValue))
    (fun _ _ _ => VRet None) default_prefer false.
Example C122_told_example :
  agree (cf_callback (sa_config ex_creds_sasl)) ex_picky (mk_sdata (get_mechname ex_plain_client) SClient) /\
  same_choice (cf_callback (sa_config ex_creds_sasl)) ex_picky /\
  ~ agree (cf_callback (sa_config ex_creds_sasl)) ex_picky (mk_sdata (lit "LOGIN") SClient) /\
  option_map fst (ps_run (ex_env (fun _ => CRet None) no_vcb no_chan) (ps_with_impl ex_plain_client ex_picky) [(None, [])])
  = Some [(Ok (Finished true), [zero] ++ lit "user" ++ [zero] ++ lit "pw")].
Proof.
  split; [split; intros; reflexivity|]. split; [split; intros; reflexivity|]. split.
  - intros [H _]. specialize (H [] [] (RSatisfy PAuthId)). vm_compute in H. discriminate.
  - vm_compute. reflexivity.
Qed.

(** A server whose application does nothing finishes PLAIN without a result. *)
Example C122_unvalidated_example :
  match ps_run (ex_env (fun _ => CRet None) no_vcb no_chan)
          (ex_start (server_start_suggested ex_default (lit "PLAIN")))
          [(Some ([zero] ++ lit "user" ++ [zero] ++ lit "pw"), [])] with
  | Some (ds, q) => ds = [(Ok (Finished false), [])] /\ ps_validation q = None /\
      get_mechname q = lit "PLAIN" /\ ps_side q = SServer
  | None => False
  end.
Proof. vm_compute. repeat split. Qed.

(** EXTERNAL and PLAIN clients of an application that does nothing. *)
Example C122_unprovided_example :
  let e := ex_env (fun _ => CRet None) no_vcb no_chan in
  option_map fst (ps_run e (ex_start (client_start_suggested ex_default [lit "EXTERNAL"])) [(None, [])])
  = Some [(Ok (Finished true), [])] /\
  option_map fst (ps_run e (ex_start (client_start_suggested ex_default [lit "PLAIN"])) [(None, [])])
  = Some [(Err (ECbNoCallback PAuthId), [zero])].
Proof. split; vm_compute; reflexivity. Qed.

(** A -PLUS client: without a channel binding callback it needs the application. *)
Definition ex_binding (chan : bool) : callback :=
  mk_callback (fun _ _ _ _ => ex_cb (mk_entry PAuthId (lit "user") ::
      if chan then [mk_entry PChannelBindings (lit "data")] else []))
    (fun _ _ _ => VFinalize 3 (lit "ok") (VRet None)) default_prefer true.
Definition ex_plus (chan : bool) (cb : bytes -> option bytes) : psession :=
  ex_start (client_start_suggested
    (sasl_with_cb (with_callback (with_registry builder_new [DScram SHA256 true]) (ex_binding chan)) cb 3)
    [lit "SCRAM-SHA-256-PLUS"]).
Example C122_bound_example :
  let e := ex_env (fun _ => CRet None) no_vcb no_chan in
  let first p := option_map (fun x => fst (fst x)) (ps_step e p None []) in
  (forall c cb, ps_mechanism (ex_plus c cb) = Builtin (XScramC SHA256 (Some (ScInitial Supported)))) /\
  first (ex_plus true no_channel_bindings) = Some (Ok Running) /\
  first (ex_plus false (this_cb (lit "tls-unique") (lit "data"))) = Some (Ok Running) /\
  first (ex_plus false no_channel_bindings) = Some (Err (EMissingChannelBindingData (lit "tls-unique"))).
Proof.
  cbv zeta. split; [intros c cb; reflexivity|]. split; [|split]; vm_compute; reflexivity.
Qed.
Example C122_polite_example : forall c cb, polite (ps_env (ex_env (fun _ => CRet None) no_vcb no_chan) (ex_plus c cb)).
Proof. intros c cb tr x k. destruct c; cbn; repeat split; intros; reflexivity. Qed.

(** Servers whose application validates for type 3. *)
Definition ex_external (tag : nat) : psession :=
  ex_start (server_start_suggested (sasl_new (with_callback (with_defaults builder_new) (ex_binding true)) tag)
    (lit "EXTERNAL")).
Example C122_value_example :
  let e := ex_env (fun _ => CRet None) no_vcb no_chan in
  let value p := option_map (fun x => ps_validation (snd x)) (ps_run e p [(Some (lit "user"), [])]) in
  value (ex_external 3) = Some (Some (lit "ok")) /\ value (ex_external 4) = Some None.
Proof. split; vm_compute; reflexivity. Qed.
