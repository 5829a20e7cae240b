(** Specification vocabulary for SCRAM messages in the wrong place. *)
From Verif Require Import Bytes Types World CallbackSpec Simple OAuth ScramParser Scram Gssapi Session Spec_Simple.

(** The four messages of a SCRAM exchange. *)
Inductive place := InClientFirst | InServerFirst | InClientFinal | InServerFinal.

(** A session that is about to read, or to write, the message. *)
Inductive expects : place -> session -> Prop :=
| ex_client_first s a plus : s_mech s = XScramS a (Some (SsClientFirst plus)) -> expects InClientFirst s
| ex_server_first s a w : s_mech s = XScramC a (Some (ScClientFirst w)) -> expects InServerFirst s
| ex_client_final s a d : s_mech s = XScramS a (Some (SsClientFinal d)) -> expects InClientFinal s
| ex_server_final s a w : s_mech s = XScramC a (Some (ScServerFirst w)) -> expects InServerFinal s.
Inductive sends : place -> session -> Prop :=
| se_client_first s a plus : s_mech s = XScramC a (Some (ScInitial plus)) -> sends InClientFirst s
| se_server_first s a plus : s_mech s = XScramS a (Some (SsClientFirst plus)) -> sends InServerFirst s
| se_client_final s a w : s_mech s = XScramC a (Some (ScClientFirst w)) -> sends InClientFinal s
| se_server_final s a d : s_mech s = XScramS a (Some (SsClientFinal d)) -> sends InServerFinal s.

(** The step failed because the message could not be parsed, and had no effect on the application or
    the peer. *)
Definition unreadable (s : session) (r : res serr state) (out : bytes) (s' : session) : Prop :=
  ((exists x, r = Err (EMech (MScramParse x))) \/ r = Panic) /\ out = [] /\ new_events s s' [].

(** Some session that expects the message can read it. *)
Definition understood (k : place) (m : bytes) : Prop :=
  exists e s script r out s', expects k s /\ step e s (Some m) script = (r, out, s') /\ ~ unreadable s r out s'.
