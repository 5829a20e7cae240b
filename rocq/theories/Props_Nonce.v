(** C111: How nonces are drawn. *)
From Coq Require Import Lia NArith.
From Verif Require Import Bytes Types World CallbackSpec Base64 ScramParser Scram Session Spec_ScramText Spec_Scram
  Spec_Random Spec_Nonce ExampleEnv ExampleScram Proof_Nonce.

(** ** C111 *)

(** Every word of 24 of the characters "!" to "y" except the comma is the client's nonce for some
    24 random indices below 88. *)
Theorem C111_client_partial : forall e s a plus input st msg s' w,
  s_mech s = XScramC a (Some (ScInitial plus)) -> step e s input [] = (Ok st, msg, s') ->
  length w = 24 -> Forall drawn_char w ->
  exists f p s'', indices f 88 (s_rng s) 24 /\ step (set_rng e f) s input [] = (Ok st, p ++ w, s'').
Proof. exact client_even. Qed.
Print Assumptions C111_client_partial.

(** It is so for one choice of indices only. *)
Theorem C111_client_once : forall e f g s a plus input script script' st st' p q w s' s'',
  s_mech s = XScramC a (Some (ScInitial plus)) -> no_zero script -> no_zero script' ->
  indices f 88 (s_rng s) 24 -> indices g 88 (s_rng s) 24 -> length w = 24 ->
  step (set_rng e f) s input script = (Ok st, p ++ w, s') ->
  step (set_rng e g) s input script' = (Ok st', q ++ w, s'') ->
  Forall drawn_char w /\ same_draws f g (s_rng s) 24.
Proof. exact client_once. Qed.
Print Assumptions C111_client_once.

(** The same for the server's part of the nonce; for a user without stored password, also for
    the 32 bytes of the salt. *)
Theorem C111_server_partial : forall e s a plus m st out s' w t,
  s_mech s = XScramS a (Some (SsClientFirst plus)) -> step e s (Some m) [] = (Ok st, out, s') ->
  length w = 24 -> Forall drawn_char w -> length t = 32 ->
  exists f cn salt iters s'',
    indices f 88 (s_rng s) 24 /\ indices f 256 (s_rng s + 24) 32 /\
    step (set_rng e f) s (Some m) [] = (Ok st, server_first_text (cn ++ w) salt iters, s'') /\
    (server_pretends s' a -> salt = encode t).
Proof. exact server_even. Qed.
Print Assumptions C111_server_partial.

Theorem C111_server_once : forall e f g s a plus m script script' st st' out s' s'',
  s_mech s = XScramS a (Some (SsClientFirst plus)) -> no_zero script -> no_zero script' ->
  indices f 88 (s_rng s) 24 -> indices g 88 (s_rng s) 24 ->
  step (set_rng e f) s (Some m) script = (Ok st, out, s') ->
  step (set_rng e g) s (Some m) script' = (Ok st', out, s'') ->
  same_draws f g (s_rng s) 24.
Proof. exact server_once. Qed.
Print Assumptions C111_server_once.

Theorem C111_salt_once : forall e f g s a plus m script script' st st' out s' s'',
  s_mech s = XScramS a (Some (SsClientFirst plus)) -> no_zero script -> no_zero script' ->
  indices f 256 (s_rng s + 24) 32 -> indices g 256 (s_rng s + 24) 32 ->
  step (set_rng e f) s (Some m) script = (Ok st, out, s') -> server_pretends s' a ->
  step (set_rng e g) s (Some m) script' = (Ok st', out, s'') -> server_pretends s'' a ->
  same_draws f g (s_rng s + 24) 32.
Proof. exact salt_once. Qed.
Print Assumptions C111_salt_once.

(** "All the characters that are valid chars for a nonce" (scram/tools.rs:8): not "z". *)
Theorem C111_all_refuted : ~ (forall e s a plus input st msg s' w,
  s_mech s = XScramC a (Some (ScInitial plus)) -> step e s input [] = (Ok st, msg, s') ->
  length w = 24 -> legal_nonce w ->
  exists f p s'', step (set_rng e f) s input [] = (Ok st, p ++ w, s'')).
Proof.
  intros H.
  destruct (H ex_cl (ex_c Supported) SHA1 Supported None _ _ _ (repeat "z"%char 24) eq_refl ex_brun1 eq_refl z_legal)
    as [f [p [s'' E]]].
  exact (client_never_z (set_rng ex_cl f) (ex_c Supported) SHA1 Supported None [] _ _ _ eq_refl (Forall_nil _) E).
Qed.
Print Assumptions C111_all_refuted.

Example C111_example :
  drawn_char "!"%char /\ drawn_char "y"%char /\ ~ drawn_char ","%char /\ ~ drawn_char "z"%char /\
  step ex_cl (ex_c Supported) None [] = (Ok Running, ex_b1, ex_bs1) /\
  step ex_sv (ex_s true) (Some ex_b1) [] = (Ok Running, ex_b2, ex_bs2) /\
  (exists out s', step ex_empty (ex_s true) (Some ex_b1) [] = (Ok Running, out, s') /\ server_pretends s' SHA1) /\
  indices (fun j => N.of_nat j) 88 0 24 /\ indices (fun j => N.of_nat j) 256 24 32.
Proof.
  split; [split; [vm_compute; split; discriminate|discriminate]|].
  split; [split; [vm_compute; split; discriminate|discriminate]|].
  split; [intros [_ H]; apply H; reflexivity|].
  split; [intros [[_ H] _]; vm_compute in H; apply H; reflexivity|].
  split; [exact ex_brun1|]. split; [exact ex_brun2|].
  split; [do 2 eexists; split; [vm_compute; reflexivity|vm_compute; reflexivity]|].
  split; intros j J; lia.
Qed.
