(** Property theorems about the example messages in the documentation of the crate. *)
From Verif Require Import Bytes Base64 Types World CallbackSpec Simple Session Spec_Simple
  ExampleEnv Proof_Simple Proof_Primer Props_Simple.

(** C105, refuted: with these credentials every client sends something else ... *)
Theorem C105_message_refuted : ~ (forall e s,
  s_mech s = XPlainC -> provides e PAuthId (lit "username") -> provides e PPassword (lit "secret") ->
  withholds e PAuthzId ->
  exists s', step64 e s None = (Ok (Finished true), primer_message, s')).
Proof.
  intros H.
  pose (e := ex_env (fun _ => ex_cb [mk_entry PAuthId (lit "username"); mk_entry PPassword (lit "secret")])
               no_vcb no_chan).
  destruct (H e (ex_start XPlainC)) as [s' E]; [reflexivity|..].
  - intros tr c. simpl. repeat split.
  - intros tr c. simpl. repeat split.
  - intros tr c. split; [simpl; repeat split|]. vm_compute. tauto.
  - revert E. vm_compute. discriminate.
Qed.
Print Assumptions C105_message_refuted.

(** ... namely this. *)
Theorem C105_message_partial : forall e s,
  s_mech s = XPlainC -> provides e PAuthId (lit "username") -> provides e PPassword (lit "secret") ->
  withholds e PAuthzId ->
  exists s', step64 e s None = (Ok (Finished true), lit "AHVzZXJuYW1lAHNlY3JldA==", s').
Proof. exact primer_sent. Qed.
Print Assumptions C105_message_partial.

(** What the documentation shows is only ever sent by a client whose password ends in a line
    feed. *)
Theorem C105_meaning : forall e s input st s',
  s_mech s = XPlainC -> polite e -> step64 e s input = (Ok st, primer_message, s') ->
  exists evs, new_events s s' evs /\ answers PAuthId evs = [lit "username"] /\
    answers PPassword evs = [lit "secret" ++ [chr 10]].
Proof. exact primer_meaning. Qed.
Print Assumptions C105_meaning.

Example C105_example :
  let e := ex_env (fun _ => ex_cb [mk_entry PAuthId (lit "username");
             mk_entry PPassword (lit "secret" ++ [chr 10])]) no_vcb no_chan in
  fst (step64 e (ex_start XPlainC) None) = (Ok (Finished true), primer_message) /\ polite e.
Proof. split; [vm_compute; reflexivity|]. intros tr c k. simpl. repeat split. Qed.
