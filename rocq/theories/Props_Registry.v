(** Property theorems about mechanism selection. *)
From Verif Require Import Bytes Types World Simple OAuth Scram Gssapi Session Registry
  Spec_Registry Proof_Registry.

(** C02 as stated is false: a client with channel binding enabled that only registered the
    bare SCRAM mechanism runs it although the server offers only the -PLUS variant. *)
Theorem C02_only_offered_refuted : forall a prefer,
  (forall m, prefer None m <> Gt) ->
  exists i, client_start [DScram a false] true prefer [scram_plus_name a] = Ok (i, DScram a false)
    /\ ~ In (d_name (DScram a false)) [scram_plus_name a].
Proof. exact plus_only_offer. Qed.
Print Assumptions C02_only_offered_refuted.

(** C02 for every other case: whatever the registry, the preference function and the offer,
    the session runs a fresh client of a registered mechanism the server offered. Missing:
    bare SCRAM selected with channel binding enabled where -PLUS but not the bare name was
    offered. *)
Theorem C02_only_offered_partial : forall reg cb prefer offered i m,
  client_start reg cb prefer offered = Ok (i, m) ->
  (forall a, m = DScram a false -> cb = true -> In (scram_plus_name a) offered ->
     In (scram_name a) offered) ->
  In m reg /\ d_has_client m = true /\ fresh_client m i /\ In (d_name m) offered.
Proof. exact never_unoffered. Qed.
Print Assumptions C02_only_offered_partial.

Example C02_example :
  client_start builtin_registry true default_prefer [lit "LOGIN"; lit "SCRAM-SHA-1"; lit "PLAIN"]
  = Ok (Builtin (XScramC SHA1 (Some (ScInitial ServerNoSupport))), DScram SHA1 false).
Proof. reflexivity. Qed.

(** C03 *)
Theorem C03_highest_priority : forall reg cb offered i m,
  client_start reg cb default_prefer offered = Ok (i, m) ->
  best (candidate cb offered) reg m.
Proof. exact default_best. Qed.
Print Assumptions C03_highest_priority.

Example C03_example :
  client_start builtin_registry false default_prefer
    [lit "PLAIN"; lit "SCRAM-SHA-512"; lit "SCRAM-SHA-256"; lit "XOAUTH2"]
  = Ok (Builtin (XScramC SHA256 (Some (ScInitial ClientNoSupport))), DScram SHA256 false) /\
  client_start builtin_registry false default_prefer [lit "PLAIN"; lit "OAUTHBEARER"]
  = Ok (Builtin (XOAuthBearerC OcInitial), DOAuthBearer).
Proof. split; reflexivity. Qed.

(** C04 *)
Theorem C04_order_insensitive : forall reg cb prefer o1 o2,
  (forall y, In y o1 <-> In y o2) ->
  client_start reg cb prefer o1 = client_start reg cb prefer o2.
Proof. exact start_set. Qed.
Print Assumptions C04_order_insensitive.

Example C04_example : forall y : bytes,
  In y [lit "PLAIN"; lit "SCRAM-SHA-1-PLUS"; lit "SCRAM-SHA-1"; lit "PLAIN"] <->
  In y [lit "SCRAM-SHA-1"; lit "PLAIN"; lit "SCRAM-SHA-1-PLUS"].
Proof. intros y. simpl. tauto. Qed.

(** C05: with the default preference the start fails exactly if there is no candidate. *)
Theorem C05_none_iff : forall reg cb offered,
  (exists x, client_start reg cb default_prefer offered = Err x) <->
  (forall m, In m reg -> ~ candidate cb offered m).
Proof. exact default_none. Qed.
Print Assumptions C05_none_iff.

(** C05: a preference function can refuse everything. *)
Theorem C05_always_greater : forall reg cb offered prefer,
  (forall o m, prefer o m = Gt) ->
  client_start reg cb prefer offered = Err NoSharedMechanism.
Proof. exact greater_none. Qed.
Print Assumptions C05_always_greater.

(** C05: no panic with built-in mechanisms, whatever the preference function. *)
Theorem C05_no_panic : forall reg cb offered prefer,
  Forall is_builtin reg -> client_start reg cb prefer offered <> Panic.
Proof. exact builtin_no_panic. Qed.
Print Assumptions C05_no_panic.

(** C05: the restriction to built-in mechanisms is needed. A downstream mechanism without
    client that is offered by the server makes client start panic. *)
Theorem C05_custom_panics : forall c,
  cu_client c = false ->
  client_start [DCustom c] false default_prefer [cu_name c] = Panic.
Proof. exact custom_panics. Qed.
Print Assumptions C05_custom_panics.

Example C05_example :
  Forall is_builtin builtin_registry /\
  client_start builtin_registry false default_prefer [lit "SCRAM-SHA-1-PLUS"; lit "GSSAPI"]
  = Err NoSharedMechanism /\
  cu_client (mk_custom (lit "X") 0 false true SClient) = false.
Proof. repeat split; repeat constructor. Qed.

(** C06 *)
Theorem C06_server_start : forall reg name,
  (forall i m, server_start reg name = Ok (i, m) <->
     first_server reg name m /\ fresh_server reg m i) /\
  (server_start reg name = Err NoSharedMechanism <->
     forall m, In m reg -> d_has_server m = true -> d_name m <> name) /\
  server_start reg name <> Panic.
Proof. exact server_exact. Qed.
Print Assumptions C06_server_start.

Example C06_example :
  server_start (DScram SHA256 true :: builtin_registry) (lit "SCRAM-SHA-256")
  = Ok (Builtin (XScramS SHA256 (Some (SsClientFirst true))), DScram SHA256 false) /\
  server_start [DPlain] (lit "SCRAM-SHA-256") = Err NoSharedMechanism.
Proof. split; reflexivity. Qed.
