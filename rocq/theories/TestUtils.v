(** test/mod.rs, test/config.rs and test/mechanism.rs (feature [testutils]): what the crate has for
    testing protocol implementations and applications. *)
From Verif Require Import Bytes Types World Session Registry Custom.

(** test/mechanism.rs:91-98 RsaslState; 76-89: both constructors begin with [New]. *)
Inductive rsasl_state := RsNew | RsFirst | RsSecond | RsThird | RsFourth.
(** test/mechanism.rs:100-110 RSaslTest::step: [todo!()], which panics. *)
Definition rsasl_test : Custom.custom rsasl_state := fun _ => GDone Panic.

(** test/mechanism.rs:112-120 RSASLTEST_CF and 128-137 RSASLTEST_SF. *)
Definition rsasltest_cf : mechanism := DCustom (mk_custom (lit "X-RSASLTEST-CF") 0 true true SClient).
Definition rsasltest_sf : mechanism := DCustom (mk_custom (lit "X-RSASLTEST-SF") 0 true true SClient).

(** test/config.rs:36 MECHANISMS, for client_config (38-42) and server_config (44-48). *)
Definition test_registry : list mechanism := [rsasltest_cf; rsasltest_sf].

(** test/mod.rs:21-29 client_session: [unwrap] on a mechanism without a client. *)
Definition test_client_session (d : mechanism) : res sasl_err inst :=
  match d_client d with Some i => Ok i | None => Panic end.
(** test/mod.rs:34-42 server_session, in a configuration with the mechanisms [reg]; the
    constructors return no errors. *)
Definition test_server_session (reg : list mechanism) (d : mechanism) : res sasl_err inst :=
  match d_server reg d with Some i => Ok i | None => Panic end.
