(** C98: step64 and its writer. *)
From Coq Require Import Lia.
From Verif Require Import Bytes Base64 Types World CallbackSpec Spec_Basic Simple OAuth ScramParser Scram Gssapi Session Registry
  Spec_Session Step64 Spec_Step64 ExampleEnv Props_Simple Proof_Step64.

(** With a writer that accepts everything, step64 is its short form: what C21 says holds for it. *)
Theorem C98_accepting_partial : forall e s input r sent s',
  step64_via e s input [] r sent s' -> step64 e s input = (r, sent, s').
Proof. exact via_accepting. Qed.
Print Assumptions C98_accepting_partial.

(** Whatever the writer does, it receives the beginning of the encoding of what the step wrote. *)
Theorem C98_prefix_partial : forall e s input ds r sent s', step64_via e s input ds r sent s' ->
  (r = Err EBase64 /\ sent = [] /\ s' = s) \/
  exists i answers out rest, input = option_map encode i /\ step e s i answers = (r, out, s') /\
    encode out = sent ++ rest.
Proof. exact via_prefix. Qed.
Print Assumptions C98_prefix_partial.

(** A success does not mean that the message was handed to the writer: the last characters are
    written when the encoder is dropped, and a failure is not noticed. The EXTERNAL client offers
    "admin" and, as three bytes are taken, "in". *)
Definition ex_failing : list wresp := [WAccept (4 * enc_groups); WFail 7].
Example ex_lost : exists s',
  step64_via ex_e (ex_start XExternalC) None ex_failing (Ok (Finished true)) (lit "YWRt") s' /\
  step64 ex_e (ex_start XExternalC) None = (Ok (Finished true), lit "YWRtaW4=", s').
Proof.
  eexists. split; [|vm_compute; reflexivity].
  exists [lit "admin"; lit "in"]. do 5 eexists.
  split; [repeat constructor; discriminate|]. split; [vm_compute; reflexivity|].
  split; [intros more; vm_compute; reflexivity|vm_compute; reflexivity].
Qed.
Theorem C98_complete_refuted :
  ~ (forall e s input ds st sent s', polite e -> Forall whole ds ->
       step64_via e s input ds (Ok st) sent s' -> step64 e s input = (Ok st, sent, s')).
Proof.
  intros H. destruct ex_lost as [s' [H1 H2]].
  assert (W : Forall whole ex_failing) by (repeat constructor).
  rewrite (H _ _ _ _ _ _ _ ex_e_polite W H1) in H2. discriminate H2.
Qed.
Print Assumptions C98_complete_refuted.

(** Nor if the writer never fails, but takes less than it is offered: the encoder keeps the rest and
    answers Ok(0) to the next write, which vectored writing takes for the end. The SCRAM client offers
    the header "n,a=admin,", of which nine bytes are taken, and ",". *)
Example ex_cut : exists s' message,
  step64_via ex_e (ex_start (scram_client_new SHA256 true)) None [WAccept 1] (Ok Running)
    (encode (lit "n,a=admin")) s' /\
  step64 ex_e (ex_start (scram_client_new SHA256 true)) None = (Ok Running, message, s') /\
  message <> encode (lit "n,a=admin").
Proof.
  eexists. eexists. split; [|split; [vm_compute; reflexivity|vm_compute; discriminate]].
  exists [lit "n,a=admin,"; lit ","]. do 5 eexists.
  split; [repeat constructor; discriminate|]. split; [vm_compute; reflexivity|].
  split; [intros more; vm_compute; reflexivity|vm_compute; reflexivity].
Qed.
Theorem C98_short_refuted :
  ~ (forall e s input ds st sent s', polite e -> willing ds ->
       step64_via e s input ds (Ok st) sent s' -> step64 e s input = (Ok st, sent, s')).
Proof.
  intros H. destruct ex_cut as (s' & m & H1 & H2 & N).
  assert (W : willing [WAccept 1]) by (repeat constructor; exists 0; reflexivity).
  rewrite (H _ _ _ _ _ _ _ ex_e_polite W H1) in H2. congruence.
Qed.
Print Assumptions C98_short_refuted.

(** A writer with which every step succeeds (C20) can make step64 fail, for the same reason. *)
Theorem C98_willing_refuted :
  ~ (forall e s input ds r sent s', willing ds ->
       step64_via e s input ds r sent s' -> fst (fst (step64 e s input)) = r).
Proof.
  intros H.
  assert (W : willing [WAccept 1]) by (repeat constructor; exists 0; reflexivity).
  assert (K : exists sent s', step64_via ex_e (ex_start XExternalC) None [WAccept 1] (Err (EIo IoWriteZero)) sent s').
  { eexists. exists (snd (step ex_e (ex_start XExternalC) None [WAccept 3; WAccept 0])). exists [lit "admin"; lit "in"]. do 5 eexists.
    split; [repeat constructor; discriminate|]. split; [vm_compute; reflexivity|].
    split; [intros more; vm_compute; reflexivity|vm_compute; reflexivity]. }
  destruct K as (sent & s' & K). apply (H _ _ _ _ _ _ _ W) in K. vm_compute in K. discriminate K.
Qed.
Print Assumptions C98_willing_refuted.

(** What holds: with a writer that never fails, for mechanisms without vectored writes or if the
    writer takes all it is offered, a success means that everything was handed over ... *)
Theorem C98_complete_partial : forall e s input ds st sent s', polite e ->
  unfailing ds -> plain_writes (s_mech s) = true \/ Forall whole ds ->
  step64_via e s input ds (Ok st) sent s' -> step64 e s input = (Ok st, sent, s').
Proof. exact via_complete. Qed.
Print Assumptions C98_complete_partial.
(** ... and with one that takes all it is offered or fails, at most the last four characters are
    missing. *)
Theorem C98_tail_partial : forall e s input ds st sent s', polite e -> Forall whole ds ->
  step64_via e s input ds (Ok st) sent s' ->
  exists message, step64 e s input = (Ok st, message, s') /\
    (sent = message \/ exists rest, message = sent ++ rest /\ length rest = 4).
Proof. exact via_tail. Qed.
Print Assumptions C98_tail_partial.

(** A LOGIN server, and a writer that takes the last characters one by one. *)
Example C98_example : exists s',
  unfailing [WAccept 12; WAccept 1; WInterrupt; WAccept 2] /\ plain_writes (XLoginS LsNew) = true /\
  step64_via ex_e (ex_start (XLoginS LsNew)) None [WAccept 12; WAccept 1; WInterrupt; WAccept 2] (Ok Running)
    (encode login_prompt1) s'.
Proof.
  exists (snd (step ex_e (ex_start (XLoginS LsNew)) None [])).
  split; [repeat constructor; discriminate|]. split; [reflexivity|].
  exists [login_prompt1; [nul]]. do 5 eexists.
  split; [repeat constructor; discriminate|]. split; [vm_compute; reflexivity|].
  split; [intros more; vm_compute; reflexivity|vm_compute; reflexivity].
Qed.
