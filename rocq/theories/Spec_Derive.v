(** Vocabulary for C113: which keys are derived from passwords. *)
From Verif Require Import Bytes Types World Scram Session Spec_Flow.

(** The same surroundings with another PBKDF2 function. *)
Definition set_kdf (e : env) (kdf : kdf_of) : env := set_apps e (e_cb e) (e_vcb e) kdf.

(** A SCRAM client that has sent its first message and waits for the server's. *)
Definition expects_salt (s : session) : Prop :=
  exists a st, s_mech s = XScramC a (Some (ScClientFirst st)).
