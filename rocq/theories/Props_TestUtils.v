(** C118: the utilities for testing. *)
From Coq Require Import List.
From Verif Require Import Bytes Types World Session Registry Custom Mechname TestUtils ExampleEnv ExampleScram Proof_TestUtils.
Import ListNotations.

(** C118: a client with the test configuration selects the "server first" mechanism if it is offered,
    otherwise the "client first" one, and fails if neither is; preference and order do not matter. *)
Theorem C118_select : forall cb offered,
  (In (d_name rsasltest_sf) offered ->
     exists i, client_start test_registry cb default_prefer offered = Ok (i, rsasltest_sf)) /\
  (~ In (d_name rsasltest_sf) offered -> In (d_name rsasltest_cf) offered ->
     exists i, client_start test_registry cb default_prefer offered = Ok (i, rsasltest_cf)) /\
  (~ In (d_name rsasltest_sf) offered -> ~ In (d_name rsasltest_cf) offered ->
     client_start test_registry cb default_prefer offered = Err NoSharedMechanism).
Proof. exact test_select. Qed.
Print Assumptions C118_select.
(** C118: a server starts exactly these two. *)
Theorem C118_start : forall n, (exists i d, server_start test_registry n = Ok (i, d)) <->
  n = lit "X-RSASLTEST-CF" \/ n = lit "X-RSASLTEST-SF".
Proof. exact test_start. Qed.
Print Assumptions C118_start.
(** C118: client_session and server_session panic exactly for mechanisms that lack the side. *)
Theorem C118_sessions : forall reg d,
  (test_client_session d = Panic <-> d_has_client d = false) /\
  (test_server_session reg d = Panic <-> d_has_server d = false).
Proof. exact test_sessions. Qed.
Print Assumptions C118_sessions.

(** C118: but no session with one of the two gets anywhere: *)
Theorem C118_steps_refuted :
  ~ (forall e s input script, fst (fst (cstep e rsasl_test s input script)) <> Panic).
Proof. intros H. apply (H ex_empty (mk_csession RsNew [] 0 None) None []). reflexivity. Qed.
Print Assumptions C118_steps_refuted.
(** ... every step of it panics, whatever it is given, before anything has happened. *)
Theorem C118_panics : forall e s input script, cstep e rsasl_test s input script = (Panic, [], s).
Proof. intros e [st tr rng v] input script. reflexivity. Qed.
Print Assumptions C118_panics.

(** C118: and the client goes first in the mechanism in which the server should. *)
Theorem C118_first_refuted :
  ~ (forall d x, In d test_registry -> d_name d = x ++ lit "-SF" -> are_we_first SServer d = true).
Proof.
  intros H. discriminate (H rsasltest_sf (lit "X-RSASLTEST") (or_intror (or_introl eq_refl)) eq_refl).
Qed.
Print Assumptions C118_first_refuted.
Theorem C118_first_partial : forall d x, In d test_registry -> d_name d = x ++ lit "-CF" ->
  are_we_first SClient d = true /\ are_we_first SServer d = false.
Proof. intros d x [<-|[<-|[]]] _; split; reflexivity. Qed.
Print Assumptions C118_first_partial.

Example C118_select_example :
  client_start test_registry false default_prefer [lit "X-RSASLTEST-SF"; lit "PLAIN"; lit "X-RSASLTEST-CF"]
    = Ok (Foreign (mk_custom (lit "X-RSASLTEST-SF") 0 true true SClient), rsasltest_sf) /\
  client_start test_registry true default_prefer [lit "PLAIN"; lit "X-RSASLTEST-CF"]
    = Ok (Foreign (mk_custom (lit "X-RSASLTEST-CF") 0 true true SClient), rsasltest_cf) /\
  client_start test_registry false default_prefer [lit "PLAIN"] = Err NoSharedMechanism.
Proof. vm_compute. auto. Qed.
(** The names are names of mechanisms. *)
Example C118_names : map mn_parse (map d_name test_registry) = [Ok (lit "X-RSASLTEST-CF"); Ok (lit "X-RSASLTEST-SF")].
Proof. vm_compute. reflexivity. Qed.
Example C118_sessions_example :
  test_client_session (DCustom (mk_custom (lit "X") 0 false true SClient)) = Panic /\
  test_server_session builtin_registry (DScram SHA1 false) = Ok (Builtin (XScramS SHA1 (Some (Scram.SsClientFirst false)))).
Proof. vm_compute. auto. Qed.
