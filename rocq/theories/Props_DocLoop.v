(** C112: the client of the crate's documentation. *)
From Verif Require Import Bytes Base64 Types World CallbackSpec Simple OAuth ScramParser Scram Gssapi Session Registry DocLoop
  Spec_Simple Spec_Registry Spec_Order Spec_History Spec_Errors Spec_Talk Spec_Scram Spec_ScramText
  ExampleEnv ExampleScram Proof_Errors Proof_DocLoop Props_Errors.

(** C112: it never steps an exchange that is over ... *)
Theorem C112_done : forall e reg cb prefer offered initial script more x out s,
  ~ invents e EMechanismDone ->
  sasl_authenticate e reg cb prefer offered initial script more = Some (DocErrored x, out, s) ->
  x <> EMechanismDone.
Proof. exact auth_done. Qed.
Print Assumptions C112_done.

(** ... and, as long as the other side does send data, not without the input the mechanism needs. *)
Theorem C112_input : forall e reg cb prefer offered initial script more x out s,
  Forall (fun p => fst p <> None) more -> ~ invents e EInputDataRequired ->
  sasl_authenticate e reg cb prefer offered initial script more = Some (DocErrored x, out, s) ->
  x <> EInputDataRequired.
Proof. exact auth_input. Qed.
Print Assumptions C112_input.

(** C112: it asks for more data at most twice. *)
Theorem C112_ends : forall e reg cb prefer offered i m initial script more out s,
  client_start reg cb prefer offered = Ok (i, m) -> m <> DGssapi ->
  sasl_authenticate e reg cb prefer offered initial script more = Some (DocWaits, out, Some s) ->
  length more <= 1.
Proof. exact auth_ends. Qed.
Print Assumptions C112_ends.

(** C112: if the other side ends the exchange, it writes nothing more and either finishes or
    reports that input is missing. *)
Theorem C112_silence : forall e reg cb prefer offered i m initial script more out s sc,
  client_start reg cb prefer offered = Ok (i, m) -> m <> DGssapi -> ~ is_login m ->
  sasl_authenticate e reg cb prefer offered initial script more = Some (DocWaits, out, Some s) ->
  exists r s',
    sasl_authenticate e reg cb prefer offered initial script (more ++ [(None, sc)])
      = Some (r, out, Some s') /\
    (r = DocDone (Finished false) \/ r = DocErrored EInputDataRequired).
Proof. exact auth_silent. Qed.
Print Assumptions C112_silence.

(** C112: with SCRAM it is done only after the server has proved, for this very exchange, that it
    knows the server key belonging to the application's password or cached key. *)
Theorem C112_scram : forall e reg cb prefer offered i a plus initial script more st out s,
  client_start reg cb prefer offered = Ok (i, DScram a plus) ->
  no_zero script -> Forall (fun p => no_zero (snd p)) more ->
  sasl_authenticate e reg cb prefer offered initial script more = Some (DocDone st, out, Some s) ->
  exists m2 sc2 m4 sc3 rest header user bare before evs after salt n ck sk,
    let am := rfc_auth_message (first_bare user (nonce_from e 0)) m2 bare in
    more = (Some m2, sc2) :: (Some m4, sc3) :: rest /\ st = Finished false /\
    out = (header ++ first_bare user (nonce_from e 0))
          ++ bare ++ lit ",p=" ++ encode (client_proof e a ck am) /\
    s_trace s = before ++ evs ++ after /\ keys_from e a evs salt n ck sk /\
    m4 = lit "v=" ++ encode (e_hmac e a sk am).
Proof. exact auth_scram. Qed.
Print Assumptions C112_scram.

(** C112: only SCRAM can panic in it. *)
Theorem C112_panics : forall e reg cb prefer offered initial script more out s,
  crypto_ok e -> (forall c, ~ In (DCustom c) reg) ->
  sasl_authenticate e reg cb prefer offered initial script more = Some (DocPanicked, out, s) ->
  exists i a plus, client_start reg cb prefer offered = Ok (i, DScram a plus).
Proof. exact auth_panics. Qed.
Print Assumptions C112_panics.

(** A complete SCRAM exchange; the same when the last message is forged, missing or cut short; and
    one for which the messages have not arrived yet. *)
Definition ex_doc (more : list (option bytes * list wresp)) : option (doc_result * bytes * option session) :=
  sasl_authenticate ex_cl [DScram SHA1 true] true default_prefer [lit "SCRAM-SHA-1-PLUS"] [] [] more.

Example C112_example :
  ~ invents ex_cl EMechanismDone /\ ~ invents ex_cl EInputDataRequired /\
  client_start [DScram SHA1 true] true default_prefer [lit "SCRAM-SHA-1-PLUS"]
    = Ok (Builtin (XScramC SHA1 (Some (ScInitial Supported))), DScram SHA1 true) /\
  ex_doc [(Some ex_b2, []); (Some ex_b4, [])] = Some (DocDone (Finished false), ex_b1 ++ ex_b3, Some ex_bs5) /\
  ex_doc [(Some ex_b2, [])] = Some (DocWaits, ex_b1 ++ ex_b3, Some ex_bs3) /\
  (exists s, ex_doc [(Some ex_b2, []); (None, [])] = Some (DocErrored EInputDataRequired, ex_b1 ++ ex_b3, s)) /\
  (exists s, ex_doc [(Some ex_b2, []); (Some (lit "v=AAAA"), [])]
     = Some (DocErrored EMutualAuthenticationFailed, ex_b1 ++ ex_b3, s)) /\
  (exists s, ex_doc [(Some ex_b2, []); (Some (lit "v"), [])] = Some (DocPanicked, ex_b1 ++ ex_b3, s)).
Proof.
  split; [apply ex_quiet|]. split; [apply ex_quiet|].
  split; [reflexivity|]. split; [vm_compute; reflexivity|]. split; [vm_compute; reflexivity|].
  split; [eexists; vm_compute; reflexivity|]. split; [eexists; vm_compute; reflexivity|].
  eexists; vm_compute; reflexivity.
Qed.

(** The mechanisms of the documentation, where PLAIN is selected, and LOGIN, where the server
    begins. *)
Example C112_example_plain :
  (exists s, sasl_authenticate ex_cl builtin_registry false default_prefer doc_offered [] [] []
     = Some (DocDone (Finished true), plain_message (lit "admin") (lit "user") (lit "secret"), s)) /\
  (exists s, sasl_authenticate ex_cl builtin_registry false default_prefer [lit "LOGIN"] (lit "User Name") []
       [(Some (lit "Password"), [])]
     = Some (DocDone (Finished true), lit "usersecret", s)) /\
  sasl_authenticate ex_cl builtin_registry false default_prefer [lit "GSSAPI"] [] [] []
    = Some (DocNotStarted NoSharedMechanism, [], None).
Proof.
  split; [eexists; vm_compute; reflexivity|]. split; [eexists; vm_compute; reflexivity|].
  vm_compute; reflexivity.
Qed.
