(** C110. *)
From Coq Require Import List.
From Verif Require Import Bytes Types World CallbackSpec Simple OAuth Scram Gssapi Session Registry Json
  Spec_Simple Spec_OAuth Spec_Talk Spec_Sent ExampleEnv ExampleScram Proof_Sent Props_Simple
  Props_Json Props_Gssapi.
Import ListNotations.

(** C110, session.rs:436-495: a step of a session whose messages have a form announces a message
    exactly if it wrote one, in every state, for every input and every writer that takes something
    of what it is offered. Missing: sessions that may have to transmit an empty string. *)
Theorem C110_message_partial : forall e s input script st out s',
  worded e (s_mech s) -> no_zero script -> step e s input script = (Ok st, out, s') ->
  (announces st <-> out <> []).
Proof. exact message_worded. Qed.
Print Assumptions C110_message_partial.

(** The clients of XOAUTH2 and OAUTHBEARER write nothing once they have sent the token. They
    announce a message, an empty one, exactly if they got an error report. *)
Theorem C110_reply : forall e s input script st out s',
  waits_outcome (s_mech s) -> step e s input script = (Ok st, out, s') ->
  out = [] /\ (announces st <-> ~ no_data input) /\ st <> Running.
Proof. exact outcome_reply. Qed.
Print Assumptions C110_reply.

(** The full statement is false: an EXTERNAL client without an authorization identity announces an
    empty message. *)
Theorem C110_message_refuted :
  ~ (forall e s input script st out s', no_zero script ->
       step e s input script = (Ok st, out, s') -> (announces st <-> out <> [])).
Proof.
  intros H.
  assert (E : fst (step (ex_env (fun _ => CRet None) no_vcb no_chan) (ex_at XExternalC) None [])
              = (Ok (Finished true), [])) by (vm_compute; reflexivity).
  destruct (step (ex_env (fun _ => CRet None) no_vcb no_chan) (ex_at XExternalC) None []) as [[r o] s'] eqn:F.
  cbn [fst] in E. injection E as -> ->.
  apply H in F; [|constructor]. exact (proj1 F (or_intror eq_refl) eq_refl).
Qed.
Print Assumptions C110_message_refuted.

(** RFC 7628, section 3.2.3, demands that the client answers an error report with the single
    character %x01; no client does. *)
Theorem C110_dummy_refuted :
  ~ (forall e s x script out s', s_mech s = XOAuthBearerC OcWaiting ->
       step e s (Some x) script = (Ok (Finished true), out, s') -> out = [chr 1]).
Proof.
  intros H.
  pose (x := json_to ex_error).
  assert (E : fst (step ex_takes (ex_fresh (XOAuthBearerC OcWaiting)) (Some x) [])
              = (Ok (Finished true), [])) by (vm_compute; reflexivity).
  destruct (step ex_takes (ex_fresh (XOAuthBearerC OcWaiting)) (Some x) []) as [[r o] s'] eqn:F.
  cbn [fst] in E. injection E as -> ->.
  apply H in F; [discriminate|reflexivity].
Qed.
Print Assumptions C110_dummy_refuted.

(** JSON texts are never empty; SCRAM and OAUTHBEARER messages; an empty LOGIN password is
    announced. *)
Example C110_example :
  worded (ex_reports ex_error) (XOAuthBearerS OsInitial) /\
  fst (fst (step (ex_reports ex_error) (ex_fresh (XOAuthBearerS OsInitial))
              (Some (oauthbearer_message None [] (lit "t"))) [])) = Ok Running /\
  worded ex_e (scram_client_new SHA256 true) /\
  fst (fst (step ex_e (ex_start (scram_client_new SHA256 true)) None [WAccept 1])) = Ok Running /\
  waits_outcome (XOAuthBearerC OcWaiting) /\
  fst (step ex_takes (ex_fresh (XOAuthBearerC OcWaiting)) None []) = (Ok (Finished false), []) /\
  fst (step (ex_env (fun _ => ex_cb [mk_entry PPassword []]) no_vcb no_chan) (ex_at (XLoginC LcPassword)) (Some []) [])
    = (Ok (Finished true), []).
Proof.
  split; [intros o; discriminate|]. split; [vm_compute; reflexivity|].
  split; [exact I|]. split; [vm_compute; reflexivity|].
  split; [right; reflexivity|]. split; vm_compute; reflexivity.
Qed.
