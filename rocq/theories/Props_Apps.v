(** C68. *)
From Coq Require Import List NArith Arith.
From Verif Require Import Bytes Base64 Num Types World CallbackSpec Simple OAuth ScramParser Scram
  Gssapi Session Registry Apps Spec_Simple Spec_ScramText Spec_Scram Spec_Apps ExampleEnv
  ExampleScram Proof_Apps.
Import ListNotations.

(** ** server_plain.rs *)

Definition ex_base : env := ex_env (fun _ => CRet None) no_vcb no_chan.

(** C68 is false of server_plain.rs: a client without authorization identity is not judged by
    its password. *)
Theorem C68_plain_refuted : ~ (forall e s msg script out s' z a p v,
  s_mech s = XPlainS -> s_val s = None ->
  step (server_plain e) s (Some msg) script = (Ok (Finished false), out, s') ->
  plain_accepts e msg z a p -> plain_policy z a p v -> reached s' v).
Proof.
  pose (m := plain_message [] (lit "username") (lit "secret")).
  pose (s' := ses_of (step (server_plain ex_base) (ex_at XPlainS) (Some m) [])).
  assert (E : step (server_plain ex_base) (ex_at XPlainS) (Some m) []
              = (Ok (Finished false), [], s')) by (vm_compute; reflexivity).
  assert (A : plain_accepts ex_base m [] (lit "username") (lit "secret")).
  { exists (lit "username"), (lit "secret"). split; [reflexivity|].
    split; [apply Nat.leb_le; reflexivity|]. split; [intros []|].
    split; [intros K; cbn in K; intuition discriminate|].
    split; [intros K; cbn in K; intuition discriminate|].
    repeat split; discriminate. }
  intros H. pose proof (H ex_base (ex_at XPlainS) _ _ _ _ _ _ _ _ eq_refl eq_refl E A (pol_accept _ (or_introl eq_refl))) as K.
  vm_compute in K. discriminate.
Qed.
Print Assumptions C68_plain_refuted.

(** C68: what server_plain.rs decides. Missing for the full statement: messages with an empty
    authorization identity, all of which it turns down as AuthzBad. *)
Theorem C68_plain_partial : forall e s msg script r out s',
  s_mech s = XPlainS -> s_val s = None ->
  step (server_plain e) s (Some msg) script = (r, out, s') ->
  out = [] /\
  ((exists z a p v, plain_accepts e msg z a p /\ r = Ok (Finished false) /\ reached s' v /\
      (z <> [] -> plain_policy z a p v) /\ (z = [] -> v = AuthzBad)) \/
   ((forall z a p, ~ plain_accepts e msg z a p) /\ s_val s' = None /\
      exists x, r = Err (EMech (MPlain x)))).
Proof. exact plain_app_exact. Qed.
Print Assumptions C68_plain_partial.

(** C68: the verdicts exclude each other. *)
Theorem C68_one_verdict : forall s v w, reached s v -> reached s w -> v = w.
Proof. exact reached_one. Qed.
Print Assumptions C68_one_verdict.

Example C68_plain_example :
  let verdict m := let x := step (server_plain ex_base) (ex_at XPlainS) (Some m) [] in
                   (res_of x, s_val (ses_of x)) in
  verdict (plain_message (lit "username") (lit "username") (lit "secret"))
  = (Ok (Finished false), Some (verdict_value (Accepted (lit "username")))) /\
  verdict (plain_message (lit "username") (lit "username") (lit "badpass"))
  = (Ok (Finished false), Some (verdict_value PasswdBad)) /\
  verdict (plain_message (lit "somebody") (lit "somebody") (lit "somepass"))
  = (Ok (Finished false), Some (verdict_value NoSuchUser)) /\
  verdict (plain_message (lit "username") (lit "somebody") (lit "badpass"))
  = (Ok (Finished false), Some (verdict_value AuthzBad)) /\
  verdict (plain_message [] (lit "username") (lit "badpass"))
  = (Ok (Finished false), Some (verdict_value AuthzBad)) /\
  verdict (nul :: lit "username badpass") = (Err (EMech (MPlain PlBadFormat)), None).
Proof. vm_compute. repeat split. Qed.

(** ** server_scram.rs *)

(** C68: whoever server_scram.rs accepts has proven to know the password of "username"; it
    gives no verdict about anybody else. *)
Theorem C68_scram_sound : forall e name s0 a plus m1 script1 st out1 s1 m2 script2 r out2 s2 x,
  s_mech s0 = XScramS a (Some (SsClientFirst plus)) -> s_val s0 = None -> crypto_ok e ->
  no_zero script1 ->
  step (server_scram e name) s0 (Some m1) script1 = (Ok st, out1, s1) ->
  step (server_scram e name) s1 (Some m2) script2 = (r, out2, s2) ->
  s_val s2 = Some x ->
  exists f two z cn t data,
    client_first_fields m1 f two z (lit "username") cn t /\
    proven e a f z (lit "username") cn (nonce_from e (s_rng s0)) out1 m2 data
      (scram_app_stored e) /\
    ((z = None \/ z = Some (lit "username")) /\ reached s2 (Accepted (lit "username")) \/
     (exists y, z = Some y /\ y <> lit "username") /\ reached s2 AuthzBad).
Proof. exact scram_app_sound. Qed.
Print Assumptions C68_scram_sound.

(** C68: a client with the right credentials is accepted. *)
Theorem C68_scram_complete : forall ec e name sc ss plus splus input f data rest,
  (forall tr c k, e_cb ec tr (e_sd ec) c k = credentials_cb None (lit "username") (lit "secret")) ->
  name = lit "SCRAM-" ++ rest ->
  s_mech sc = XScramC SHA256 (Some (ScInitial plus)) ->
  s_mech ss = XScramS SHA256 (Some (SsClientFirst splus)) -> s_val ss = None ->
  crypto_ok e -> same_crypto ec e ->
  client_can_bind ec plus f data -> server_can_bind (server_scram e name) f data ->
  legal_flag f -> (f = CbSupportedNotUsed -> splus = false) ->
  exists m1 m2 m3 m4 sc1 sc2 sc3 ss1 ss2,
    step ec sc input [] = (Ok Running, m1, sc1) /\
    step (server_scram e name) ss (Some m1) [] = (Ok Running, m2, ss1) /\
    step ec sc1 (Some m2) [] = (Ok Running, m3, sc2) /\
    step (server_scram e name) ss1 (Some m3) [] = (Ok (Finished true), m4, ss2) /\
    step ec sc2 (Some m4) [] = (Ok (Finished false), [], sc3) /\
    reached ss2 (Accepted (lit "username")).
Proof. exact scram_app_complete. Qed.
Print Assumptions C68_scram_complete.

(** C68: the keys are those of SCRAM-SHA-256: SCRAM-SHA-1, which the server also offers, always
    fails for "username". *)
Theorem C68_scram_sha1 : forall e name s plus m f two z cn t data script,
  s_mech s = XScramS SHA1 (Some (SsClientFirst plus)) -> crypto_ok e ->
  client_first_fields m f two z (lit "username") cn t ->
  (f = CbSupportedNotUsed -> plus = false) -> server_can_bind (server_scram e name) f data ->
  exists s', step (server_scram e name) s (Some m) script
               = (Err (EMech MScramPasswordHashInvalid), [], s') /\ s_val s' = s_val s.
Proof. exact scram_app_sha1. Qed.
Print Assumptions C68_scram_sha1.

Definition ex_app : env := server_scram ex_base (lit "SCRAM-SHA-256").
Definition ex_app_client : env :=
  ex_env (fun _ => credentials_cb None (lit "username") (lit "secret")) no_vcb no_chan.
Example C68_scram_example :
  let sc := ex_at (XScramC SHA256 (Some (ScInitial ClientNoSupport))) in
  let ss := ex_at (XScramS SHA256 (Some (SsClientFirst false))) in
  let a1 := step ex_app_client sc None [] in
  let b1 := step ex_app ss (Some (out_of a1)) [] in
  let a2 := step ex_app_client (ses_of a1) (Some (out_of b1)) [] in
  let b2 := step ex_app (ses_of b1) (Some (out_of a2)) [] in
  client_can_bind ex_app_client ClientNoSupport CbNotSupported [] /\
  server_can_bind ex_app CbNotSupported [] /\ legal_flag CbNotSupported /\
  out_of a1 = lit "n,,n=username,r=" ++ nonce_from ex_app_client 0 /\
  res_of b2 = Ok (Finished true) /\ reached (ses_of b2) (Accepted (lit "username")).
Proof.
  split; [split; reflexivity|]. split; [reflexivity|]. split; [exact I|].
  vm_compute. repeat split.
Qed.

(** ** client_simple.rs *)

(** C68 is false of client_simple.rs: not the credentials typed in are sent but the lines, with
    their terminators. *)
Theorem C68_client_refuted : ~ (forall e s input out s' user password,
  (forall tr c k, e_cb e tr (e_sd e) c k
     = client_simple_cb (user ++ [chr 10]) (password ++ [chr 10])) ->
  s_mech s = XPlainC -> step e s input [] = (Ok (Finished true), out, s') ->
  out = plain_message [] user password).
Proof.
  intros H.
  specialize (H (ex_env (fun _ => client_simple_cb (lit "u" ++ [chr 10]) (lit "p" ++ [chr 10]))
                   no_vcb no_chan) (ex_at XPlainC) None _ _ (lit "u") (lit "p")
                (fun _ _ _ => eq_refl) eq_refl eq_refl).
  vm_compute in H. discriminate.
Qed.
Print Assumptions C68_client_refuted.

(** C68: what it sends instead. *)
Theorem C68_client_partial : forall e s input user password,
  (forall tr c k, e_cb e tr (e_sd e) c k
     = client_simple_cb (user ++ [chr 10]) (password ++ [chr 10])) ->
  s_mech s = XPlainC -> nul_free user -> nul_free password ->
  exists s', step e s input []
    = (Ok (Finished true), plain_message [] (user ++ [chr 10]) (password ++ [chr 10]), s').
Proof. exact client_simple_sends. Qed.
Print Assumptions C68_client_partial.

(** ** mechanism_selection.rs and the documentation of client_simple.rs *)

(** C68: a client with credentials prefers the mechanisms in the documented order. *)
Theorem C68_prefers : forall offered i m,
  client_start (credentials_registry false) false default_prefer offered = Ok (i, m) ->
  first_offered client_simple_order offered m.
Proof. exact credentials_prefer. Qed.
Print Assumptions C68_prefers.

Example C68_prefers_example :
  client_start (credentials_registry false) false default_prefer
    [lit "LOGIN"; lit "PLAIN"; lit "GSSAPI"; lit "SCRAM-SHA-1"; lit "SCRAM-SHA-256"]
  = Ok (Builtin (XScramC SHA256 (Some (ScInitial ClientNoSupport))), DScram SHA256 false) /\
  client_start (credentials_registry false) false default_prefer [lit "LOGIN"; lit "PLAIN"]
  = Ok (Builtin XPlainC, DPlain).
Proof. split; reflexivity. Qed.
