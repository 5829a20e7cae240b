(** C57-C61: names, ranking and initiative of the mechanisms. *)
From Verif Require Import Bytes Types World CallbackSpec Mechname Simple OAuth Scram Gssapi Session
  Registry Spec_Simple Spec_Registry Spec_Order ExampleEnv Proof_Order.

(** C57 *)
Theorem C57_registered_name : forall m,
  d_name m = iana_name m.
Proof. exact names_iana. Qed.
Print Assumptions C57_registered_name.
Theorem C57_legal : forall m,
  is_builtin m -> mn_parse (d_name m) = Ok (d_name m) /\ length (d_name m) <= 20.
Proof. exact names_legal. Qed.
Print Assumptions C57_legal.
Theorem C57_distinct : forall m1 m2,
  is_builtin m1 -> is_builtin m2 -> d_name m1 = d_name m2 -> m1 = m2.
Proof. exact names_distinct. Qed.
Print Assumptions C57_distinct.

Example C57_example :
  is_builtin (DScram SHA256 true) /\ d_name (DScram SHA256 true) = lit "SCRAM-SHA-256-PLUS".
Proof. split; reflexivity. Qed.

(** C58 is false as stated: GSSAPI, documented to come first, has the priority of PLAIN. Offered
    both, the client sends its password in the clear. *)
Theorem C58_order_refuted : ~ forall reg cb offered i m x rm rx,
      client_start reg cb default_prefer offered = Ok (i, m) ->
      In x reg -> candidate cb offered x ->
      documented_rank m rm -> documented_rank x rx -> rm <= rx.
Proof. exact gssapi_not_first. Qed.
Print Assumptions C58_order_refuted.

(** C58: the documented order holds for every registry and offer among the other mechanisms.
    Missing: GSSAPI. *)
Theorem C58_order_partial : forall reg cb offered i m x rm rx,
  client_start reg cb default_prefer offered = Ok (i, m) ->
  In x reg -> candidate cb offered x -> x <> DGssapi ->
  documented_rank m rm -> documented_rank x rx -> rm <= rx.
Proof. exact documented_order. Qed.
Print Assumptions C58_order_partial.
Theorem C58_no_cleartext : forall reg cb offered i m a plus,
  client_start reg cb default_prefer offered = Ok (i, m) ->
  In (DScram a plus) reg -> candidate cb offered (DScram a plus) ->
  m <> DPlain /\ m <> DLogin.
Proof. exact scram_before_cleartext. Qed.
Print Assumptions C58_no_cleartext.
Theorem C58_binds : forall reg cb offered i m a,
  client_start reg cb default_prefer offered = Ok (i, m) ->
  In (DScram a true) reg -> candidate cb offered (DScram a true) -> m <> DScram a false.
Proof. exact plus_before_bare. Qed.
Print Assumptions C58_binds.

Example C58_example :
  let reg := [DScram SHA256 true; DPlain; DScram SHA1 false; DLogin; DScram SHA256 false] in
  let offered := [lit "PLAIN"; lit "SCRAM-SHA-1"; lit "SCRAM-SHA-256-PLUS"] in
  client_start reg true default_prefer offered
  = Ok (Builtin (scram_client_new_plus SHA256), DScram SHA256 true) /\
  In DPlain reg /\ candidate true offered DPlain /\ documented_rank DPlain 4 /\
  candidate true offered (DScram SHA1 false).
Proof.
  split; [vm_compute; reflexivity|]. split; [right; left; reflexivity|].
  split; [exists (lit "PLAIN"); split; [left|]; reflexivity|]. split; [constructor|].
  exists (lit "SCRAM-SHA-1"). split; [right; left; reflexivity|left; reflexivity].
Qed.

(** C59: with_credentials tries its mechanisms in the documented order; between the two of equal
    priority, SCRAM-SHA-256 comes before SCRAM-SHA-512. *)
Theorem C59_credentials_order : forall z offered,
  match client_start (credentials_registry z) false default_prefer offered with
  | Ok (i, m) =>
      In (d_name m) offered /\ fresh_client m i /\
      exists l1 l2, credentials_order z = l1 ++ m :: l2 /\
        forall x, In x l1 -> ~ In (d_name x) offered
  | Err _ => forall x, In x (credentials_order z) -> ~ In (d_name x) offered
  | Panic => False
  end.
Proof. exact credentials_choice. Qed.
Print Assumptions C59_credentials_order.

Example C59_example :
  client_start (credentials_registry true) false default_prefer
    [lit "LOGIN"; lit "SCRAM-SHA-512"; lit "PLAIN"]
  = Ok (Builtin (scram_client_new SHA512 true), DScram SHA512 false) /\
  client_start (credentials_registry true) false default_prefer [lit "LOGIN"]
  = Err NoSharedMechanism.
Proof. split; vm_compute; reflexivity. Qed.

(** examples/mechanism_selection.rs: the assertion in line 17. *)
Example C59_selection_example :
  client_start (credentials_registry false) false default_prefer
    [lit "LOGIN"; lit "PLAIN"; lit "GSSAPI"; lit "SCRAM-SHA-1"; lit "SCRAM-SHA-256"]
  = Ok (Builtin (scram_client_new SHA256 true), DScram SHA256 false).
Proof. vm_compute. reflexivity. Qed.

(** C60: the side that begins is the one the mechanism's specification names. *)
Theorem C60_initiator : forall sd m,
  are_we_first sd m = true <-> sd = initiator m.
Proof. exact first_initiator. Qed.
Print Assumptions C60_initiator.
(** C60: it does not need input for its first step. GSSAPI passes it on to the library. *)
Theorem C60_begins : forall e reg sd m s i1 i2 script,
  begun reg sd m s -> sd = initiator m -> m <> DGssapi ->
  step e s i1 script = step e s i2 script.
Proof. exact begins_without_input. Qed.
Print Assumptions C60_begins.

(** C60 is false as stated: a LOGIN client runs without having received anything, which
    mechanism.rs:47-49 forbids. *)
Theorem C60_waits_refuted :
  ~ forall e reg sd m s script r out s', begun reg sd m s -> are_we_first sd m = false ->
      step e s None script = (r, out, s') -> exists x, r = Err x.
Proof.
  intros H.
  destruct (H (ex_env (fun _ => CSatisfy PAuthId (lit "user") CRet) no_vcb no_chan) [] SClient DLogin
    (mk_session (XLoginC LcAuthid) [] 0 None) [] _ _ _ fc_login eq_refl eq_refl) as [x E].
  vm_compute in E. discriminate E.
Qed.
Print Assumptions C60_waits_refuted.

(** C60: the other side waits: without input it fails, writes nothing, asks nothing. Missing: the
    LOGIN client, and the EXTERNAL and ANONYMOUS servers, which treat no input as empty input. *)
Theorem C60_waits_partial : forall e reg sd m s script r out s',
  begun reg sd m s -> sd <> initiator m -> ~ careless sd m ->
  step e s None script = (r, out, s') ->
  (r = Err EInputDataRequired \/ (m = DGssapi /\ r = Err (EMech MGss))) /\
  out = [] /\ new_events s s' [] /\ s_rng s' = s_rng s /\ s_val s' = s_val s.
Proof. exact waits_for_input. Qed.
Print Assumptions C60_waits_partial.

Example C60_example :
  begun [] SServer (DScram SHA1 false) (mk_session (XScramS SHA1 (Some (SsClientFirst false))) [] 0 None) /\
  SServer <> initiator (DScram SHA1 false) /\ ~ careless SServer (DScram SHA1 false) /\
  are_we_first SServer DLogin = true /\ are_we_first SClient DPlain = true /\
  begun [] SServer DLogin (mk_session (XLoginS LsNew) [] 0 None).
Proof.
  split; [|split; [discriminate|split; [intros []|repeat split; constructor]]].
  constructor. split; [discriminate|]. intros [x [[] _]].
Qed.

(** C61 is false as stated: the default registry lacks the channel binding mechanisms and GSSAPI. *)
Theorem C61_complete_refuted : ~ forall m, is_builtin m -> In m builtin_registry.
Proof.
  intros H. specialize (H DGssapi I). apply default_registry_complete in H.
  destruct H as [_ [H _]]. congruence.
Qed.
Print Assumptions C61_complete_refuted.
(** C61: it has all others, each once. Missing: GSSAPI and -PLUS. *)
Theorem C61_complete_partial : NoDup builtin_registry /\
  forall m, In m builtin_registry <->
    is_builtin m /\ m <> DGssapi /\ forall a, m <> DScram a true.
Proof. exact default_registry_complete. Qed.
Print Assumptions C61_complete_partial.
