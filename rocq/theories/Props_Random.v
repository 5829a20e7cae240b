(** Property theorems about the random numbers a session uses. *)
From Coq Require Import Lia.
From Verif Require Import Bytes Types World Scram Session Spec_Flow Spec_Random ExampleEnv ExampleScram
  Proof_Random.

(** ** C82 *)

(** A step draws no random number, except the first step of SCRAM: 24 numbers for the nonce of a
    client, and 24 for that of a server, with 32 more for the salt of an unknown user. *)
Theorem C82_step : forall e s input script r out s',
  step e s input script = (r, out, s') ->
  exists k, s_rng s' = s_rng s + k /\
    (k = 0 \/ (new_scram_client s /\ k = 24) \/ (new_scram_server s /\ (k = 24 \/ k = 56))).
Proof. exact draws_step. Qed.
Print Assumptions C82_step.

(** And so does the whole session, whatever it receives and however often it is stepped: SCRAM draws
    in its first step or never. *)
Theorem C82_session : forall e s l,
  exists k, s_rng (after e s l) = s_rng s + k /\
  (k = 0 \/ (new_scram_client s /\ k = 24) \/ (new_scram_server s /\ (k = 24 \/ k = 56))).
Proof. exact total_draws. Qed.
Print Assumptions C82_session.

(** The numbers a session has drawn are the only ones it depends on: with any other source that gives
    the same numbers at those places, it sends the same bytes and ends in the same state. *)
Theorem C82_only_these : forall e f l s,
  (forall j, s_rng s <= j < s_rng (after e s l) -> f j = e_rng e j) ->
  dialogue (set_rng e f) s l = dialogue e s l /\ after (set_rng e f) s l = after e s l.
Proof. exact only_these. Qed.
Print Assumptions C82_only_these.

(** A security layer draws none. *)
Theorem C82_layer : forall e f s input script,
  (let '(r, out, s') := session_encode e s input script in
     s_rng s' = s_rng s /\ session_encode (set_rng e f) s input script = (r, out, s')) /\
  (let '(r, out, s') := session_decode e s input script in
     s_rng s' = s_rng s /\ session_decode (set_rng e f) s input script = (r, out, s')).
Proof. exact layer_draws. Qed.
Print Assumptions C82_layer.

(** ** Examples *)

(** Clients and servers of SCRAM that draw 24, 24 and 56 numbers, and one that draws none. *)
Example C82_counts :
  s_rng (after ex_cl (ex_c Supported) [(None, []); (Some ex_b2, []); (Some ex_b4, []); (None, [])]) = 24 /\
  s_rng (after ex_sv (ex_s true) [(Some ex_b1, []); (Some ex_b3, []); (None, [])]) = 24 /\
  s_rng (after ex_empty (ex_s true) [(Some ex_b1, []); (Some ex_b3, [])]) = 56 /\
  s_rng (after ex_sv (ex_s true) [(Some ex_b3, []); (Some ex_b1, [])]) = 0 /\
  new_scram_client (ex_c Supported) /\ new_scram_server (ex_s true).
Proof. repeat split; try (vm_compute; reflexivity); do 2 eexists; reflexivity. Qed.

(** Another source that agrees on the first 24 numbers gives the same dialogue; one that differs in the
    last of them does not. *)
Example C82_sources :
  let other n := fun j => if Nat.ltb j n then e_rng ex_cl j else (e_rng ex_cl j + 1)%N in
  let l := [(None, []); (Some ex_b2, []); (Some ex_b4, [])] in
  (forall j, j < 24 -> other 24 j = e_rng ex_cl j) /\ other 24 24 <> e_rng ex_cl 24 /\
  dialogue (set_rng ex_cl (other 24)) (ex_c Supported) l = dialogue ex_cl (ex_c Supported) l /\
  dialogue (set_rng ex_cl (other 23)) (ex_c Supported) l <> dialogue ex_cl (ex_c Supported) l.
Proof.
  cbv zeta. split; [|split; [|split]].
  - intros j Hj. apply Nat.ltb_lt in Hj. rewrite Hj. reflexivity.
  - vm_compute. discriminate.
  - vm_compute. reflexivity.
  - vm_compute. discriminate.
Qed.
