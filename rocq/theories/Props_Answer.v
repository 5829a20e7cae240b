(** C99: servers answer with little more than they were sent. *)
From Coq Require Import Lia.
From Verif Require Import Bytes Base64 Num Types World CallbackSpec Simple OAuth Scram Gssapi Session ExampleEnv
  ExampleScram Spec_Simple Spec_Answer Proof_Answer.

(** Whatever arrives and whatever the writer does, a step of a server writes at most what its
    mechanism allows and what the application gave to be sent. *)
Theorem C99_step : forall e s input script r out s' evs,
  crypto_ok e -> serving (s_mech s) -> step e s input script = (r, out, s') -> new_events s s' evs ->
  length out <= allowed (s_mech s) input + supplied e evs.
Proof. exact answers_bounded. Qed.
Print Assumptions C99_step.

(** So any number of calls together write at most what came in, 90 bytes per call, and what the
    application gave. *)
Theorem C99_calls : forall e s n i o s1 evs,
  crypto_ok e -> serving (s_mech s) -> traffic e s n i o s1 -> new_events s s1 evs ->
  o <= i + 90 * n + supplied e evs.
Proof. exact traffic_bounded. Qed.
Print Assumptions C99_calls.

(** A SCRAM session writes at most 163 bytes more than it was sent, however often it is called. *)
Theorem C99_scram : forall e s a plus n i o s1 evs,
  crypto_ok e -> s_mech s = XScramS a (Some (SsClientFirst plus)) ->
  traffic e s n i o s1 -> new_events s s1 evs -> o <= i + 163 + supplied e evs.
Proof. exact scram_traffic_bounded. Qed.
Print Assumptions C99_scram.

(** The bounds are reached: a prompt of LOGIN has 10 bytes; an unknown user who sends 9 bytes gets 82
    back; and a whole exchange of SCRAM-SHA-1 with a stored password ends with 30 bytes. *)
Example C99_example :
  crypto_ok ex_sv /\
  length (out_of (step ex_empty (ex_at (XLoginS LsNew)) None [])) = allowed (XLoginS LsNew) None /\
  (exists out s1, step ex_empty (ex_s false) (Some (lit "n,,n=,r=x")) [] = (Ok Running, out, s1) /\
     length out = allowed (s_mech (ex_s false)) (Some (lit "n,,n=,r=x"))) /\
  length ex_b4 = allowed (s_mech ex_bs2) (Some ex_b3) /\
  traffic ex_sv (ex_s true) 2 (0 + length ex_b1 + length ex_b3) (0 + length ex_b2 + length ex_b4) ex_bs4 /\
  exists evs, new_events (ex_s true) ex_bs4 evs /\ 0 < supplied ex_sv evs.
Proof.
  split; [apply ex_crypto|]. split; [reflexivity|].
  split; [eexists; eexists; split; [vm_compute; reflexivity|reflexivity]|].
  split; [reflexivity|]. split.
  - eapply (tr_call _ _ 1 _ _ ex_bs2 (Some ex_b3)); [|exact ex_brun4].
    eapply (tr_call _ _ 0 _ _ _ (Some ex_b1)); [apply tr_none|exact ex_brun2].
  - exists (s_trace ex_bs4). split; [reflexivity|]. vm_compute. lia.
Qed.
