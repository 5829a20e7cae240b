(** C66. *)
From Coq Require Import List NArith.
From Verif Require Import Bytes Utf8 Types World CallbackSpec Simple OAuth Scram Gssapi Session
  Registry Spec_Simple Spec_Wire Spec_History ExampleEnv ExampleScram Proof_Utf8 Proof_Text.
Import ListNotations.

(** C66: the check accepts exactly the UTF-8 encodings of scalar values (RFC 3629). *)
Theorem C66_utf8 : forall l,
  utf8_valid l = true <-> utf8_text l.
Proof. exact utf8_exact. Qed.
Print Assumptions C66_utf8.

(** C66: whatever a server mechanism is fed, every identity, token and key/value pair it shows
    to the application and every channel binding name is UTF-8. The name is the one string made
    by [from_utf8_unchecked] (scram/parser.rs:208). *)
Theorem C66_shown : forall e reg name m s n s1 input script r out s2 evs,
  prepares_text e -> server_start reg name = Ok (Builtin (s_mech s), m) ->
  history e s n s1 -> step e s1 input script = (r, out, s2) -> new_events s1 s2 evs ->
  (forall c, shown evs c -> textual c) /\ (forall x, In (EvChan x) evs -> utf8_text x).
Proof. exact server_text. Qed.
Print Assumptions C66_shown.

Example C66_utf8_example :
  map utf8_valid [[chr 195; chr 164]; [chr 240; chr 159; chr 146; chr 169];
    [chr 192; chr 128]; [chr 237; chr 160; chr 128]; [chr 224; chr 159; chr 191];
    [chr 244; chr 144; chr 128; chr 128]; [chr 195]]
  = [true; true; false; false; false; false; false] /\
  utf8_text [chr 195; chr 164] /\ ~ utf8_text [chr 237; chr 160; chr 128].
Proof.
  split; [vm_compute; reflexivity|].
  split; [apply utf8_exact; vm_compute; reflexivity|].
  intros H. apply utf8_exact in H. vm_compute in H. discriminate.
Qed.

Example C66_shown_example :
  prepares_text ex_sv /\
  server_start [DScram SHA1 true] (lit "SCRAM-SHA-1-PLUS") = Ok (Builtin (s_mech (ex_s true)), DScram SHA1 true) /\
  history ex_sv (ex_s true) 1 ex_bs2 /\
  res_of (step ex_sv ex_bs2 (Some ex_b3) []) = Ok (Finished true) /\
  In (EvChan (lit "tls-exporter")) (s_trace ex_bs2) /\
  shown (s_trace ex_bs2) (scram_server_provider (lit "user") (Some (lit "admin"))).
Proof.
  split; [intros x y Hx [= <-]; exact Hx|]. split; [vm_compute; reflexivity|].
  split; [eapply history_running; [apply history_start|exact ex_brun2]|].
  split; [vm_compute; reflexivity|]. split; [vm_compute; auto|].
  right; left. exists PScramStoredPassword. vm_compute. auto.
Qed.
