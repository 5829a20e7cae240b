(** Lemmas about the example messages in the documentation of the crate. *)
From Verif Require Import Bytes Base64 Base64Facts Types World CallbackSpec Simple Session Spec_Simple
  Proof_Simple.

(** lib.rs:38-75: what the client is said to send for the user "username" with the password
    "secret", in IMAP, SMTP and XMPP alike. *)
Definition primer_message : bytes := lit "AHVzZXJuYW1lAHNlY3JldAo=".

Lemma primer_sent : forall e s,
  s_mech s = XPlainC -> provides e PAuthId (lit "username") -> provides e PPassword (lit "secret") ->
  withholds e PAuthzId ->
  exists s', step64 e s None = (Ok (Finished true), lit "AHVzZXJuYW1lAHNlY3JldA==", s').
Proof.
  intros e s Hm Ha Hp Hz.
  destruct (plain_client_complete e s None None (lit "username") (lit "secret") Hm Ha Hp Hz)
    as [s' E]; try discriminate.
  - vm_compute. intuition discriminate.
  - vm_compute. intuition discriminate.
  - exists s'. unfold step64. rewrite E. reflexivity.
Qed.

Lemma primer_meaning : forall e s input st s',
  s_mech s = XPlainC -> polite e -> step64 e s input = (Ok st, primer_message, s') ->
  exists evs, new_events s s' evs /\ answers PAuthId evs = [lit "username"] /\
    answers PPassword evs = [lit "secret" ++ [chr 10]].
Proof.
  assert (K : forall e s input script st out s', s_mech s = XPlainC -> polite e ->
    step e s input script = (Ok st, out, s') -> encode out = primer_message ->
    exists evs, new_events s s' evs /\ answers PAuthId evs = [lit "username"] /\
      answers PPassword evs = [lit "secret" ++ [chr 10]]).
  { intros e s input script st out s' Hm He H Eo.
    destruct (plain_client_polite _ _ _ _ _ _ _ Hm He H)
      as (evs & z & a & p & N & _ & -> & _ & _ & Nz & Na & Np & A & P & _).
    assert (M : plain_message z a p = plain_message [] (lit "username") (lit "secret" ++ [chr 10])).
    { apply encode_inj. rewrite Eo. vm_compute. reflexivity. }
    apply plain_message_inj in M; try assumption; try (vm_compute; intuition discriminate).
    destruct M as (_ & -> & ->). exists evs. auto. }
  intros e s input st s' Hm He H. unfold step64 in H. destruct input as [i|].
  - destruct (decode i) as [x|]; [|discriminate].
    destruct (step e s (Some x) []) as [[r out] s1] eqn:E. injection H as -> Eo <-.
    eapply K; eassumption.
  - destruct (step e s None []) as [[r out] s1] eqn:E. injection H as -> Eo <-.
    eapply K; eassumption.
Qed.
