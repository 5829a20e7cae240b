(** C124. *)
From Coq Require Import List NArith Arith Lia.
From Verif Require Import Bytes Utf8 Base64 Types World CallbackSpec Simple ScramParser Scram Session
  Registry Apps Api Mains Spec_Simple Spec_ScramText Spec_Scram Spec_Apps Spec_Mains ExampleEnv
  ExampleScram Props_Interop Proof_Mains.
Import ListNotations.

(** ** server_scram.rs *)

(** C124, refuted: with other credentials than those it comes with, server_scram.rs does not print how
    the authentication went. *)
Theorem C124_scram_refuted : ~ (forall e1 e2 user password,
  crypto_ok e2 -> same_crypto e1 e2 -> utf8_valid user = true ->
  exists n v, scram_main e1 e2 user password n = Some (Printed v)).
Proof.
  intros H. destruct (H toy toy (lit "somebody") (lit "secret") toy_ok) as [n [v K]];
    [repeat split|reflexivity|].
  destruct (main_printed toy toy (lit "somebody") (lit "secret") n v toy_ok (conj (fun _ _ => eq_refl) (conj (fun _ _ _ => eq_refl)
    (fun _ _ _ _ => eq_refl))) eq_refl K) as [E _]. discriminate E.
Qed.
Print Assumptions C124_scram_refuted.

(** C124: how it ends, after at most two rounds. Missing for the full statement: with any other
    name or password it panics. *)
Theorem C124_scram_partial : forall e1 e2 user password n,
  2 <= n -> crypto_ok e2 -> same_crypto e1 e2 -> utf8_valid user = true ->
  (user = lit "username" -> passes e1 e2 password ->
     scram_main e1 e2 user password n
     = Some (Printed (Some (verdict_value (Accepted (lit "username")))))) /\
  (user <> lit "username" \/ ~ passes e1 e2 password ->
     scram_main e1 e2 user password n = Some Panicked).
Proof. exact main_exact. Qed.
Print Assumptions C124_scram_partial.

(** C124: as it comes. *)
Theorem C124_scram_right : forall e1 e2 n,
  2 <= n -> crypto_ok e2 -> same_crypto e1 e2 ->
  scram_main e1 e2 (lit "username") (lit "secret") n
  = Some (Printed (Some (verdict_value (Accepted (lit "username"))))).
Proof. exact main_right. Qed.
Print Assumptions C124_scram_right.

(** C124: it never prints that there is no validation, that the user is unknown or anything else but
    the acceptance of "username". *)
Theorem C124_scram_printed : forall e1 e2 user password n v,
  crypto_ok e2 -> same_crypto e1 e2 -> utf8_valid user = true ->
  scram_main e1 e2 user password n = Some (Printed v) ->
  user = lit "username" /\ v = Some (verdict_value (Accepted (lit "username"))).
Proof. exact main_printed. Qed.
Print Assumptions C124_scram_printed.

(** In the toy surroundings one round is not enough, the right password passes and others do not. *)
Example C124_scram_example :
  passes toy toy (lit "secret") /\ ~ passes toy toy (lit "secrets") /\
  scram_main toy toy (lit "username") (lit "secret") 1 = None /\
  scram_main toy toy (lit "username") (lit "secret") 2 = Some (Printed (Some (lit "+username"))) /\
  scram_main toy toy (lit "username") (lit "secrets") 2 = Some Panicked /\
  scram_main toy toy (lit "some,body") (lit "secret") 2 = Some Panicked /\
  scram_main toy toy [] (lit "secret") 2 = Some Panicked.
Proof.
  split; [exact (passes_right toy toy toy_ok)|]. split.
  { intros [_ K]. vm_compute in K. discriminate K. }
  vm_compute. repeat split.
Qed.

(** ** server_plain.rs *)

(** C124, refuted: an assertion of server_plain.rs fails, whatever its surroundings. *)
Theorem C124_plain_refuted : forall e, plain_main e = Panicked.
Proof. exact plain_main_panics. Qed.
Print Assumptions C124_plain_refuted.

(** C124: an exchange of server_plain.rs passes exactly if its assertions are what happens to the
    message. Missing for the full statement: without authorization identity this is AuthzBad. *)
Theorem C124_plain_partial : forall e message expected,
  (exists z a p v, plain_accepts e message z a p /\ (z <> [] -> plain_policy z a p v) /\
     (z = [] -> v = AuthzBad) /\ (plain_exchange e message expected = Printed tt <-> expected = Some v)) \/
  ((forall z a p, ~ plain_accepts e message z a p) /\
     (plain_exchange e message expected = Printed tt <-> expected = None)).
Proof. exact exchange_exact. Qed.
Print Assumptions C124_plain_partial.

(** The five exchanges: three fail. *)
Example C124_plain_example :
  map (fun x => plain_exchange toy (fst x) (snd x)) plain_main_cases
  = [Panicked; Panicked; Panicked; Printed tt; Printed tt].
Proof. vm_compute. reflexivity. Qed.

(** ** client_simple.rs *)

(** C124, refuted: without input, and with a NUL in it, client_simple.rs panics. *)
Theorem C124_client_refuted : ~ (forall e user password, exists out,
  client_main e user password = Printed out).
Proof.
  intros H. destruct (H toy [] []) as [out K]. vm_compute in K. discriminate K.
Qed.
Print Assumptions C124_client_refuted.

(** C124: what it prints, and when. *)
Theorem C124_client_partial : forall e user password out,
  client_main e user password = Printed out <->
  (user <> [] /\ password <> [] /\ nul_free user /\ nul_free password) /\
  out = plain_message [] user password.
Proof. exact client_main_exact. Qed.
Print Assumptions C124_client_partial.

Example C124_client_example :
  client_main toy (lit "u") (lit "p") = Printed (nul :: lit "u" ++ nul :: lit "p") /\
  client_main toy (lit "u") [] = Panicked /\ client_main toy [nul] (lit "p") = Panicked.
Proof. vm_compute. repeat split. Qed.

(** ** mechanism_selection.rs *)

(** C124: its assertion holds, and holds whatever else is presented and in whatever order. *)
Theorem C124_selection : forall presented expected,
  In (lit "SCRAM-SHA-256") presented ->
  selection_main presented expected
  = if bytes_eqb (lit "SCRAM-SHA-256") expected then Printed (lit "SCRAM-SHA-256") else Panicked.
Proof. exact selection_exact. Qed.
Print Assumptions C124_selection.

Example C124_selection_example :
  selection_main [lit "LOGIN"; lit "PLAIN"; lit "GSSAPI"; lit "SCRAM-SHA-1"; lit "SCRAM-SHA-256"]
    (lit "SCRAM-SHA-256") = Printed (lit "SCRAM-SHA-256") /\
  selection_main [lit "LOGIN"; lit "PLAIN"] (lit "SCRAM-SHA-256") = Panicked.
Proof. vm_compute. split; reflexivity. Qed.
