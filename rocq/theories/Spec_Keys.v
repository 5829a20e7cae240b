(** Vocabulary for C81: servers that differ in the stored keys only. *)
From Verif Require Import Bytes Num Types World Scram Session Spec_Flow Spec_Scram.

(** Stored passwords that differ in the keys only; these have the same lengths. *)
Record same_public (sp sp' : stored) : Prop := {
  sp_iterations : st_iterations sp' = st_iterations sp;
  sp_salt : st_salt sp' = st_salt sp;
  sp_stored_len : length (st_stored_key sp') = length (st_stored_key sp);
  sp_server_len : length (st_server_key sp') = length (st_server_key sp) }.

(** The same answers, except that a stored password may have other keys. *)
Inductive other_keys : forall q, pval q -> pval q -> Prop :=
| OK_other q v : q <> PScramStoredPassword -> other_keys q v v
| OK_stored sp sp' : same_public sp sp' -> other_keys PScramStoredPassword sp sp'.

(** Two sessions of a SCRAM server at the same point of the exchange that may know different keys. *)
Record servers_alike (a : alg) (s s' : session) : Prop := {
  sa_mech : (exists st, s_mech s = XScramS a st /\ s_mech s' = XScramS a st) \/
            (exists cn sn header user z sp sp', same_public sp sp' /\
               server_waits s a cn sn header user z sp /\ server_waits s' a cn sn header user z sp');
  sa_rng : s_rng s' = s_rng s;
  sa_trace : Forall2 (event_rel other_keys) (s_trace s) (s_trace s');
  sa_val : s_val s = None <-> s_val s' = None }.

(** Message [m] contains the proof that session [s] waits for. *)
Definition proof_received (e : env) (s : session) (m : bytes) : Prop :=
  exists a cn sn header user z sp cb p64 exts, server_waits s a cn sn header user z sp /\
    authenticates e a cn sn header user sp m cb p64 exts.
(** One of the messages of a dialogue does. *)
Definition ever_proven (e : env) (s : session) (l : list (option bytes * list wresp)) : Prop :=
  exists l1 m script l2, l = l1 ++ (Some m, script) :: l2 /\ proof_received e (after e s l1) m.
