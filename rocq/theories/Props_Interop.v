(** C74, C76. *)
From Coq Require Import List NArith.
From Verif Require Import Bytes BytesFacts Utf8 Base64 Num Mechname Types World CallbackSpec Simple
  OAuth ScramParser Scram Gssapi Session Registry Apps Spec_Simple Spec_Session Spec_ScramText
  Spec_Scram Interop Spec_Net Spec_Interop ExampleEnv ExampleScram Proof_Net Proof_Interop.
Import ListNotations.

(** ** The test client and the server *)

(** C74: PLAIN. *)
Theorem C74_plain : forall e1 e2 vars show user password u p,
  user <> [] -> password <> [] -> nul_free user -> nul_free password ->
  utf8_valid user = true -> utf8_valid password = true ->
  prepared e2 user u -> prepared e2 password p -> one_line u -> one_line p ->
  always_end (test_client e1 (credentials_app user password) (lit "PLAIN"))
    (handle_client e2 (interop_server_app vars) show)
    TcMechs SvMechs (TcReturned (valid_line u (Some []) (Some p))) SvOk [] [].
Proof. exact plain_interop. Qed.
Print Assumptions C74_plain.

(** C74: LOGIN. *)
Theorem C74_login : forall e1 e2 vars show user password,
  one_line user -> one_line password ->
  always_end (test_client e1 (credentials_app user password) (lit "LOGIN"))
    (handle_client e2 (interop_server_app vars) show)
    TcMechs SvMechs (TcReturned (valid_line user None (Some password))) SvOk [] [].
Proof. exact login_interop. Qed.
Print Assumptions C74_login.

(** C74: SCRAM-SHA-256 as "username", for every password and all hash functions. *)
Theorem C74_scram : forall e1 e2 vars show password,
  crypto_ok e2 -> same_crypto e1 e2 ->
  let salted := e_pbkdf2 e2 SHA256 password (st_salt interop_stored) 4096 in
  let am := interop_message e1 e2 in
  let fits := proves e2 SHA256 (st_stored_key interop_stored) am
                (client_proof e2 SHA256 (client_key_of e2 SHA256 salted) am) in
  let same := e_hmac e2 SHA256 (st_server_key interop_stored) am
              = e_hmac e2 SHA256 (server_key_of e2 SHA256 salted) am in
  let run := always_end
      (test_client e1 (credentials_app (lit "username") password) (lit "SCRAM-SHA-256"))
      (handle_client e2 (interop_server_app vars) show) TcMechs SvMechs in
  (fits -> same -> run (TcReturned (valid_line (lit "username") None None)) SvOk [] (lit "-" ++ nl)) /\
  (fits -> ~ same -> run TcPanicked SvOk (valid_line (lit "username") None None ++ nl) []) /\
  (~ fits -> run TcPanicked SvOk (lit "ERR NOTVALID" ++ nl) []).
Proof. exact scram_interop. Qed.
Print Assumptions C74_scram.

(** C74: with the password whose keys the server has. *)
Theorem C74_scram_right : forall e1 e2 vars show password,
  crypto_ok e2 -> same_crypto e1 e2 -> stored_for e2 SHA256 password interop_stored ->
  always_end (test_client e1 (credentials_app (lit "username") password) (lit "SCRAM-SHA-256"))
    (handle_client e2 (interop_server_app vars) show)
    TcMechs SvMechs (TcReturned (valid_line (lit "username") None None)) SvOk [] (lit "-" ++ nl).
Proof. exact scram_interop_ok. Qed.
Print Assumptions C74_scram_right.

(** C74: with a name the server does not know. *)
Theorem C74_scram_unknown : forall e1 e2 vars show user name password,
  crypto_ok e1 -> utf8_valid user = true -> escape user = Ok name -> name <> lit "username" ->
  always_end (test_client e1 (credentials_app user password) (lit "SCRAM-SHA-256"))
    (handle_client e2 (interop_server_app vars) show)
    TcMechs SvMechs TcPanicked SvOk (lit "ERR NOTVALID" ++ nl) [].
Proof. exact scram_interop_unknown. Qed.
Print Assumptions C74_scram_unknown.

(** C74: whatever the client does, the server ends well only after a session for the mechanism
    named in the first line has finished, and its last line is the validation of that session. *)
Theorem C74_reports : forall e a show ls out,
  talks (handle_client e a show) SvMechs ls out (SvEnd SvOk) ->
  exists line rest name args mech i d c msgs s1 j o b s' evs,
    ls = LText line :: rest /\ words line = name :: args /\ mn_parse name = Ok mech /\
    server_start (ap_registry a) mech = Ok (i, d) /\ fresh e a SServer i d = Some c /\
    calls (cn_env c) (cn_session c) s1 /\ step (cn_env c) s1 j [] = (Ok (Finished b), o, s') /\
    new_events (cn_session c) s' evs /\
    Forall (fun m => ~ In " "%char m /\ ~ In newline m) msgs /\
    exists v, first_produced (cn_env c) [] evs v /\
      out = mechs_line (ap_registry a) ++ concat (map (fun m => m ++ nl) msgs)
            ++ match v with Some x => lit "OK " ++ x | None => lit "ERR NOTVALID" end ++ nl.
Proof. exact server_reports. Qed.
Print Assumptions C74_reports.

(** C74: and what it shows, for any client: the identities and the password that were validated. *)
Theorem C74_shown : forall e vars i d v s' x,
  fresh e (interop_server_app vars) SServer i d = Some v ->
  calls (cn_env v) (cn_session v) s' -> s_val s' = Some x ->
  exists evs c u, new_events (cn_session v) s' evs /\ In c (validations evs) /\
    get_ref c PAuthId = Some u /\
    ((In (d_name d) [lit "PLAIN"; lit "LOGIN"] /\ exists p, get_ref c PPassword = Some p /\
        (utf8_valid p = true -> lit "OK " ++ x = valid_line u (get_ref c PAuthzId) (Some p))) \/
     ((exists r, d_name d = lit "SCRAM-" ++ r) /\
        lit "OK " ++ x = valid_line u (get_ref c PAuthzId) None)).
Proof. exact interop_shown. Qed.
Print Assumptions C74_shown.

(** The hypotheses hold for the credentials of tests/plain.rs and tests/login.rs. *)
Definition ex_plain : env := ex_env (fun _ => CRet None) no_vcb no_chan.
Definition no_vars : variables := fun _ => None.
Example C74_plain_example :
  always_end (test_client ex_plain (credentials_app (lit "testuser") (lit "secret")) (lit "PLAIN"))
    (handle_client ex_plain (interop_server_app no_vars) (fun _ => lit "error"))
    TcMechs SvMechs (TcReturned (lit "OK VALID authid=testuser authzid= password=secret")) SvOk [] [].
Proof.
  assert (N : forall x, existsb (fun c => beq c nul) x = false -> nul_free x).
  { intros x H I. assert (K : existsb (fun c => beq c nul) x = true)
      by (apply existsb_exists; exists nul; split; [exact I|apply beq_refl]). congruence. }
  apply (C74_plain ex_plain ex_plain no_vars _ (lit "testuser") (lit "secret") (lit "testuser") (lit "secret"));
    try discriminate; try (apply N); try reflexivity; try (split; [reflexivity|discriminate]);
    apply printable_line; reflexivity.
Qed.
Example C74_login_example :
  always_end (test_client ex_plain (credentials_app (lit "testuser") (lit "secret")) (lit "LOGIN"))
    (handle_client ex_plain (interop_server_app no_vars) (fun _ => lit "error"))
    TcMechs SvMechs (TcReturned (lit "OK VALID authid=testuser password=secret")) SvOk [] [].
Proof. apply C74_login; apply printable_line; reflexivity. Qed.

(** Hash functions for which the stored keys are those of "secret" and of no other password. *)
Definition toy_pbkdf2 (a : alg) (p s : bytes) (i : N) : bytes :=
  repeat (if bytes_eqb p (lit "secret") then "a"%char else "b"%char) (hlen a).
Definition toy_hmac (a : alg) (k x : bytes) : bytes :=
  if bytes_eqb x (lit "Client Key") then firstn (hlen a) (k ++ repeat nul (hlen a))
  else match a, k, bytes_eqb x (lit "Server Key") with
       | SHA256, "a"%char :: _, true => st_server_key interop_stored
       | _, c :: _, _ => repeat c (hlen a)
       | _, [], _ => repeat nul (hlen a)
       end.
Definition toy_hash (a : alg) (x : bytes) : bytes :=
  match a, bytes_eqb x (repeat "a"%char (hlen a)) with
  | SHA256, true => st_stored_key interop_stored
  | _, _ => repeat nul (hlen a)
  end.
Definition toy : env :=
  mk_env (mk_sdata (lit "TEST") SClient) (fun _ _ _ _ => CRet None) (fun _ _ _ => VRet None) 0
    (fun _ => None) (fun n => N.of_nat (7 * n + 3)) toy_hash toy_hmac toy_pbkdf2 (fun x => Some x)
    (fun o => ob_status o) (fun x => Some (mk_oberr x None None))
    (fun _ => true) true (fun c i => None) (fun c => false) (fun _ => None)
    (fun c conf m => None) (fun c m => None).
Lemma toy_ok : crypto_ok toy.
Proof.
  split; [|split].
  - intros a x. cbn [e_hash toy]. unfold toy_hash.
    destruct a; try reflexivity.
    match goal with |- context [bytes_eqb ?u ?v] => destruct (bytes_eqb u v) end; reflexivity.
  - intros a k x. cbn [e_hmac toy]. unfold toy_hmac.
    destruct (bytes_eqb x (lit "Client Key")).
    + rewrite firstn_length, app_length, repeat_length. apply PeanoNat.Nat.min_l, PeanoNat.Nat.le_add_l.
    + assert (L : forall c : byte, length (repeat c (hlen a)) = hlen a) by (intros; apply repeat_length).
      destruct a, k as [|[[][][][][][][][]] k], (bytes_eqb x (lit "Server Key")); try apply L; reflexivity.
  - intros a p s i. apply repeat_length.
Qed.
Example C74_scram_example :
  stored_for toy SHA256 (lit "secret") interop_stored /\
  always_end (test_client toy (credentials_app (lit "username") (lit "secret")) (lit "SCRAM-SHA-256"))
    (handle_client toy (interop_server_app no_vars) (fun _ => lit "error"))
    TcMechs SvMechs (TcReturned (lit "OK VALID authid=username")) SvOk [] (lit "-" ++ nl) /\
  always_end (test_client toy (credentials_app (lit "username") (lit "guess")) (lit "SCRAM-SHA-256"))
    (handle_client toy (interop_server_app no_vars) (fun _ => lit "error"))
    TcMechs SvMechs TcPanicked SvOk (lit "ERR NOTVALID" ++ nl) [] /\
  always_end (test_client toy (credentials_app (lit "testuser") (lit "secret")) (lit "SCRAM-SHA-256"))
    (handle_client toy (interop_server_app no_vars) (fun _ => lit "error"))
    TcMechs SvMechs TcPanicked SvOk (lit "ERR NOTVALID" ++ nl) [].
Proof.
  assert (S : stored_for toy SHA256 (lit "secret") interop_stored) by (split; reflexivity).
  assert (Q : same_crypto toy toy) by (repeat split).
  split; [exact S|]. split; [|split].
  - exact (C74_scram_right toy toy no_vars _ (lit "secret") toy_ok Q S).
  - apply (C74_scram toy toy no_vars _ (lit "guess") toy_ok Q). vm_compute. discriminate.
  - apply (C74_scram_unknown toy toy no_vars _ (lit "testuser") (lit "testuser") (lit "secret") toy_ok);
      [reflexivity|reflexivity|discriminate].
Qed.

(** A server that ends well. *)
Definition plain_lines : list lineres :=
  [LText (lit "PLAIN AHRlc3R1c2VyAHNlY3JldA==")].
(** An authorization identity given in SCRAM is shown, too. *)
Example C74_shown_example :
  let a := mk_app (fun _ _ _ _ => credentials_cb (Some (lit "admin")) (lit "username") (lit "secret"))
             (fun _ _ _ => VRet None) builtin_registry in
  let d := DScram SHA256 false in
  match d_client d, d_server builtin_registry d with
  | Some ic, Some iv =>
  match fresh toy a SClient ic d, fresh toy (interop_server_app no_vars) SServer iv d with
  | Some c, Some v =>
      let '(_, m1, c1) := step (cn_env c) (cn_session c) None [] in
      let '(_, m2, v1) := step (cn_env v) (cn_session v) (Some m1) [] in
      let '(_, m3, c2) := step (cn_env c) c1 (Some m2) [] in
      let '(r, _, v2) := step (cn_env v) v1 (Some m3) [] in
      r = Ok (Finished true) /\ s_val v2 = Some (lit "VALID authid=username authzid=admin")
  | _, _ => False
  end
  | _, _ => False
  end.
Proof. vm_compute. auto. Qed.

Example C74_reports_example :
  exists out, talks (handle_client ex_plain (interop_server_app no_vars) (fun _ => lit "error"))
    SvMechs plain_lines out (SvEnd SvOk) /\
    out = mechs_line builtin_registry ++ lit "OK VALID authid=testuser authzid= password=secret" ++ nl.
Proof.
  eexists. split.
  - eapply TalkWrite; [reflexivity|]. eapply TalkLine; [reflexivity|].
    eapply TalkWrite; [vm_compute; reflexivity|]. apply TalkRefl.
  - vm_compute. reflexivity.
Qed.

(** ** What does not work *)

(** C76 is false of SCRAM-SHA-1 and SCRAM-SHA-512, which the server lists: the exchange fails
    for every password and whatever the hash functions. *)
Theorem C76_scram_refuted : ~ (forall e1 e2 vars show a password,
  crypto_ok e1 -> crypto_ok e2 -> In (DScram a false) (get_available builtin_registry) ->
  exists r x y, always_end
    (test_client e1 (credentials_app (lit "username") password) (scram_name a))
    (handle_client e2 (interop_server_app vars) show) TcMechs SvMechs r SvOk x y).
Proof.
  intros H. destruct (H toy toy no_vars (fun _ => []) SHA1 (lit "secret") toy_ok toy_ok)
    as [r [x [y K]]].
  { cbn. auto. }
  destruct (scram_other_interop toy toy no_vars (fun _ => []) SHA1 (lit "secret")) as [z J];
    [discriminate|].
  destruct (always_unique _ _ _ _ _ _ _ _ _ _ _ _ K J) as [_ [E _]]. discriminate E.
Qed.
Print Assumptions C76_scram_refuted.

(** C76: for every password. *)
Theorem C76_scram_fails : forall e1 e2 vars show a password,
  a <> SHA256 ->
  exists rest, always_end
    (test_client e1 (credentials_app (lit "username") password) (scram_name a))
    (handle_client e2 (interop_server_app vars) show) TcMechs SvMechs TcPanicked SvErr rest [].
Proof. exact scram_other_interop. Qed.
Print Assumptions C76_scram_fails.

(** C76 is false of the client program: it sends the name of the mechanism and nothing else. *)
Theorem C76_program_sends : forall e vars ls out t,
  talks (bin_client e vars) ClStart ls out t ->
  out = [] \/ exists d, In d builtin_registry /\ out = d_name d ++ nl.
Proof. exact bin_client_sends. Qed.
Print Assumptions C76_program_sends.

Theorem C76_program_refuted : ~ (forall e1 e2 vars show user password,
  crypto_ok e1 -> crypto_ok e2 ->
  vars (lit "RSASL_MECH") = Some (lit "PLAIN") ->
  vars (lit "RSASL_AUTHID") = Some user -> vars (lit "RSASL_PASSWORD") = Some password ->
  exists m n, nsteps (bin_client e1 vars) (handle_client e2 (interop_server_app vars) show) m
      (mk_net ClStart SvMechs [] []) n /\ n_right n = SvEnd SvOk).
Proof.
  pose (vars := fun k : bytes =>
    if bytes_eqb k (lit "RSASL_MECH") then Some (lit "PLAIN")
    else if bytes_eqb k (lit "RSASL_AUTHID") then Some (lit "testuser")
    else if bytes_eqb k (lit "RSASL_PASSWORD") then Some (lit "secret") else None).
  intros H. destruct (H toy toy vars (fun _ => []) (lit "testuser") (lit "secret") toy_ok toy_ok
    eq_refl eq_refl eq_refl) as [m [n [N E]]].
  exact (bin_client_never _ _ _ (interop_server_app vars) _ _ _ eq_refl N E).
Qed.
Print Assumptions C76_program_refuted.

(** C76: no exchange of the client program succeeds with a server of these mechanisms. *)
Theorem C76_program_never : forall e1 vars e2 a show m n,
  ap_registry a = builtin_registry ->
  nsteps (bin_client e1 vars) (handle_client e2 a show) m (mk_net ClStart SvMechs [] []) n ->
  n_right n <> SvEnd SvOk.
Proof. exact bin_client_never. Qed.
Print Assumptions C76_program_never.

(** C76: with PLAIN the client program even reports success. *)
Theorem C76_program_plain : forall e1 vars e2 a show user password,
  vars (lit "RSASL_MECH") = Some (lit "PLAIN") ->
  vars (lit "RSASL_AUTHID") = Some user -> vars (lit "RSASL_PASSWORD") = Some password ->
  user <> [] -> password <> [] -> nul_free user -> nul_free password ->
  (forall z, vars (lit "RSASL_AUTHZID") = Some z -> nul_free z) ->
  ap_registry a = builtin_registry ->
  always_end (bin_client e1 vars) (handle_client e2 a show) ClStart SvMechs ClOk SvErr
    (mechs_line builtin_registry ++ lit "-" ++ nl) [].
Proof. exact bin_client_plain. Qed.
Print Assumptions C76_program_plain.

Definition ex_vars : variables := fun k : bytes =>
  if bytes_eqb k (lit "RSASL_MECH") then Some (lit "PLAIN")
  else if bytes_eqb k (lit "RSASL_AUTHID") then Some (lit "testuser")
  else if bytes_eqb k (lit "RSASL_PASSWORD") then Some (lit "secret") else None.
Example C76_program_example :
  always_end (bin_client toy ex_vars) (handle_client toy (interop_server_app ex_vars) (fun _ => []))
    ClStart SvMechs ClOk SvErr
    (lit "SCRAM-SHA-512 SCRAM-SHA-256 SCRAM-SHA-1 PLAIN LOGIN ANONYMOUS EXTERNAL XOAUTH2 OAUTHBEARER "
     ++ nl ++ lit "-" ++ nl) [].
Proof.
  apply (C76_program_plain toy ex_vars toy (interop_server_app ex_vars) (fun _ => [])
           (lit "testuser") (lit "secret")); try reflexivity; try discriminate.
  - intros K. cbn in K. intuition discriminate.
  - intros K. cbn in K. intuition discriminate.
Qed.

(** C76: the test client succeeds with PLAIN, LOGIN and SCRAM-SHA-256. Missing for the full
    statement: SCRAM-SHA-1 and SCRAM-SHA-512, and the client program. *)
Theorem C76_partial : forall e1 e2 vars show password mech,
  crypto_ok e2 -> same_crypto e1 e2 -> stored_for e2 SHA256 password interop_stored ->
  password <> [] -> nul_free password -> one_line password ->
  prepared e2 (lit "username") (lit "username") -> prepared e2 password password ->
  In mech [lit "PLAIN"; lit "LOGIN"; lit "SCRAM-SHA-256"] ->
  exists line rest, always_end
    (test_client e1 (credentials_app (lit "username") password) mech)
    (handle_client e2 (interop_server_app vars) show)
    TcMechs SvMechs (TcReturned (lit "OK " ++ line)) SvOk [] rest.
Proof. exact interop_credentials. Qed.
Print Assumptions C76_partial.

Example C76_partial_example :
  forall mech, In mech [lit "PLAIN"; lit "LOGIN"; lit "SCRAM-SHA-256"] ->
  exists line rest, always_end (test_client toy (credentials_app (lit "username") (lit "secret")) mech)
    (handle_client toy (interop_server_app no_vars) (fun _ => []))
    TcMechs SvMechs (TcReturned (lit "OK " ++ line)) SvOk [] rest.
Proof.
  intros mech. apply C76_partial.
  - exact toy_ok.
  - repeat split.
  - split; reflexivity.
  - discriminate.
  - intros K. cbn in K. intuition discriminate.
  - apply printable_line. reflexivity.
  - split; [reflexivity|discriminate].
  - split; [reflexivity|discriminate].
Qed.
