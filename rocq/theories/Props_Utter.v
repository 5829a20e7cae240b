(** C116. *)
From Coq Require Import List NArith.
From Verif Require Import Bytes Utf8 Types World CallbackSpec Simple OAuth Scram Gssapi Session Registry Json
  Spec_Simple Spec_Wire Spec_History Spec_Json Spec_Utter ExampleEnv ExampleScram Proof_Utf8 Proof_Utter.
Import ListNotations.

(** C116: whatever a server hears, and whether the step succeeds or fails, what it writes is UTF-8
    text. *)
Theorem C116_server : forall e reg name m s n s1 input r out s2 evs,
  json_text e -> server_start reg name = Ok (Builtin (s_mech s), m) -> m <> DGssapi ->
  history e s n s1 -> step e s1 input [] = (r, out, s2) -> new_events s1 s2 evs ->
  str_answers evs -> utf8_text out.
Proof. exact server_utters. Qed.
Print Assumptions C116_server.

(** C116: of a client this is true with two exceptions. Missing from the full claim: PLAIN and
    LOGIN send a password that is not text, and SCRAM repeats what the server sent
    ([says_text]). *)
Theorem C116_client_partial : forall e reg cb prefer offered m s n s1 input r out s2 evs,
  client_start reg cb prefer offered = Ok (Builtin (s_mech s), m) ->
  history e s n s1 -> step e s1 input [] = (r, out, s2) -> new_events s1 s2 evs ->
  str_answers evs -> says_text e (s_mech s1) input evs -> utf8_text out.
Proof. exact client_utters. Qed.
Print Assumptions C116_client_partial.

(** The JSON writer of the model (C80) is one that writes text. *)
Theorem C116_json : forall e, (forall o, e_json_to e o = json_to o) -> json_text e.
Proof. intros e H o K. rewrite H. apply utf8_exact, json_ok. apply K. reflexivity. Qed.
Print Assumptions C116_json.

(** ** The full claim about clients is false *)

(** A password that is not text. *)
Definition ex_binary : env :=
  ex_env (fun _ => ex_cb [mk_entry PAuthId (lit "user"); mk_entry PPassword (lit "pass" ++ [chr 255])]) no_vcb ex_chan.
Theorem C116_password_refuted :
  ~ (forall e reg cb prefer offered m s n s1 input r out s2 evs,
      client_start reg cb prefer offered = Ok (Builtin (s_mech s), m) -> m <> DGssapi ->
      history e s n s1 -> step e s1 input [] = (r, out, s2) -> new_events s1 s2 evs ->
      str_answers evs -> (forall i, input = Some i -> utf8_text i) -> utf8_text out).
Proof.
  intros H.
  assert (K : exists r out s2 evs, step ex_binary (ex_at XPlainC) None [] = (r, out, s2) /\
    new_events (ex_at XPlainC) s2 evs /\ str_answers evs /\ utf8_valid out = false).
  { do 4 eexists. split; [vm_compute; reflexivity|]. split; [reflexivity|]. split; [|reflexivity].
    apply str_decided. reflexivity. }
  destruct K as (r & out & s2 & evs & E & N & A & V).
  assert (T : utf8_text out).
  { apply (H ex_binary [DPlain] false default_prefer [lit "PLAIN"] DPlain (ex_at XPlainC) 0 (ex_at XPlainC) None r out s2 evs); try assumption.
    - vm_compute; reflexivity.
    - discriminate.
    - apply history_start.
    - discriminate. }
  apply utf8_exact in T. congruence.
Qed.
Print Assumptions C116_password_refuted.

(** A server that sends a nonce that is not text. *)
Definition ex_rude : bytes :=
  lit "r=" ++ match s_mech ex_bs1 with XScramC _ (Some (ScClientFirst q)) => ws_nonce q | _ => [] end ++
  [chr 255] ++ lit ",s=c2FsdA==,i=4096".
Theorem C116_echo_refuted :
  ~ (forall e reg cb prefer offered m s n s1 input r out s2 evs,
      client_start reg cb prefer offered = Ok (Builtin (s_mech s), m) -> m <> DGssapi ->
      history e s n s1 -> step e s1 input [] = (r, out, s2) -> new_events s1 s2 evs ->
      str_answers evs -> text_passwords evs -> utf8_text out).
Proof.
  intros H.
  assert (K : exists r out s2 evs, step ex_cl ex_bs1 (Some ex_rude) [] = (r, out, s2) /\
    new_events ex_bs1 s2 evs /\ str_answers evs /\ text_passwords evs /\ utf8_valid out = false).
  { do 4 eexists. split; [vm_compute; reflexivity|].
    split; [unfold new_events; cbn [s_trace]; vm_compute; reflexivity|].
    split; [apply str_decided; vm_compute; reflexivity|]. split; [|vm_compute; reflexivity].
    apply pw_decided. vm_compute. reflexivity. }
  destruct K as (r & out & s2 & evs & E & N & A & P & V).
  assert (T : utf8_text out).
  { apply (H ex_cl [DScram SHA1 true] true default_prefer [lit "SCRAM-SHA-1-PLUS"] (DScram SHA1 true) (ex_c Supported)
      1 ex_bs1 (Some ex_rude) r out s2 evs); try assumption.
    - vm_compute; reflexivity.
    - discriminate.
    - eapply history_running; [apply history_start|exact ex_brun1]. }
  apply utf8_exact in T. congruence.
Qed.
Print Assumptions C116_echo_refuted.

(** ** Examples *)

(** The last message of a SCRAM server. *)
Example C116_server_example :
  (forall o, e_json_to ex_sv o = ob_status o) /\ json_text ex_sv /\
  server_start [DScram SHA1 true] (lit "SCRAM-SHA-1-PLUS") = Ok (Builtin (s_mech (ex_s true)), DScram SHA1 true) /\
  history ex_sv (ex_s true) 1 ex_bs2 /\
  step ex_sv ex_bs2 (Some ex_b3) [] = (Ok (Finished true), ex_b4, ex_bs4) /\ ex_b4 <> [].
Proof.
  split; [reflexivity|]. split; [intros o K; exact (proj1 (K o eq_refl))|]. split; [vm_compute; reflexivity|].
  split; [eapply history_running; [apply history_start|exact ex_brun2]|]. split; [exact ex_brun4|discriminate].
Qed.
(** Not every report is ASCII. *)
Definition ex_report : oberr := mk_oberr (lit "ung" ++ [chr 195; chr 188] ++ lit "ltig""") (Some [chr 1]) None.
Example C116_json_example :
  text_error ex_report /\
  json_to ex_report = lit "{""status"":""ung" ++ [chr 195; chr 188] ++ lit "ltig\"""",""scope"":""\u0001""}".
Proof.
  split; [|vm_compute; reflexivity]. split; [apply utf8_exact; reflexivity|].
  split; intros x [= <-]; apply utf8_exact; reflexivity.
Qed.
Example C116_client_example : exists evs,
  history ex_cl (ex_c Supported) 1 ex_bs1 /\ step ex_cl ex_bs1 (Some ex_b2) [] = (Ok Running, ex_b3, ex_bs3) /\
  new_events ex_bs1 ex_bs3 evs /\ str_answers evs /\ says_text ex_cl (s_mech ex_bs1) (Some ex_b2) evs /\ ex_b3 <> [].
Proof.
  eexists. split; [eapply history_running; [apply history_start|exact ex_brun1]|]. split; [exact ex_brun3|].
  split; [unfold new_events; vm_compute; reflexivity|]. split; [apply str_decided; vm_compute; reflexivity|].
  split; [|discriminate]. intros i [= <-]. apply utf8_exact. vm_compute. reflexivity.
Qed.
(** A PLAIN client with an umlaut. *)
Definition ex_umlaut : env :=
  ex_env (fun _ => ex_cb [mk_entry PAuthId [chr 195; chr 188]; mk_entry PPassword (lit "pass")]) no_vcb ex_chan.
Example C116_plain_example : exists r out s2 evs,
  step ex_umlaut (ex_at XPlainC) None [] = (r, out, s2) /\ new_events (ex_at XPlainC) s2 evs /\ str_answers evs /\
  says_text ex_umlaut XPlainC None evs /\ out = [nul; chr 195; chr 188; nul] ++ lit "pass".
Proof.
  do 4 eexists. split; [vm_compute; reflexivity|]. split; [reflexivity|]. split; [apply str_decided; reflexivity|].
  split; [apply pw_decided; reflexivity|reflexivity].
Qed.
