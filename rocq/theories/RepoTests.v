(** The unit tests of /repo, replayed on the model. They are no proofs of anything about the
    code; they check that the model answers as the code's authors say the code does. Every
    [#[test]] function that looks at behaviour is here, except test_hmac_reset_assumption
    (about the hmac crate) and the interop tests (Interop.v). An [assert!] inside a callback
    becomes an error the callback returns. *)
From Verif Require Import Bytes Mechname Types World Simple OAuth ScramParser Scram Gssapi Session
  Registry ExampleEnv ExampleScram.

(** test/mod.rs:20-43 client_session, server_session: a session without channel bindings. *)
Definition rt_session (i : option inst) : session :=
  match i with
  | Some (Builtin m) => mk_session m [] 0 None
  | _ => mk_session XPlainC [] 0 None
  end.
Definition rt_client (d : mechanism) : session := rt_session (d_client d).
Definition rt_server (d : mechanism) : session := rt_session (d_server [] d).
(** The applications of the tests. *)
Definition rt_app (cb : ctx -> reqkind -> cbprog) (vcb : ctx -> vprog) : env :=
  mk_env (mk_sdata (lit "TEST") SClient) (fun _ _ c r => cb c r) (fun _ _ c => vcb c) 0 no_chan
    (fun n => N.of_nat (7 * n + 3)) ex_hash ex_hmac ex_pbkdf2 (fun x => Some x)
    (fun o => ob_status o) (fun x => Some (mk_oberr x None None)) (fun _ => true) true
    (fun c i => None) (fun c => false) (fun _ => None) (fun c conf m => None) (fun c m => None).
Definition rt_try (p : prop) (v : pval p) (k : cbprog) : cbprog :=
  CSatisfy p v (fun r => match r with Some x => CRet (Some x) | None => k end).

(** * mechanisms/xoauth2/client.rs:99-223 *)
Definition xo_user : bytes := lit "username@host.tld".
Definition xo_token : bytes := lit "ya29.vF9dft4qmTc2Nvb3RlckBhdHRhdmlzdGEuY29tCg".
Definition xo_msg : bytes :=
  lit "user=username@host.tld" ++ [chr 1]
  ++ lit "auth=Bearer ya29.vF9dft4qmTc2Nvb3RlckBhdHRhdmlzdGEuY29tCg" ++ [chr 1; chr 1].
Definition xo_client (expected : option bytes) : env :=
  rt_app (fun _ _ =>
    rt_try PAuthId xo_user (rt_try POAuthBearerToken xo_token
      match expected with
      | None => CRet None
      | Some x => CGetAction PXOAuth2Error (fun v =>
          match v with
          | Some e => CRet (if bytes_eqb e x then None else Some (EBoxed 1))
          | None => CRet None
          end)
      end)) no_vcb.
Definition xo_after (e : env) : session := ses_of (step e (rt_client DXOAuth2) None []).
Definition xo_error : bytes :=
  lit "{""status"":""401"",""schemes"":""bearer"",""scope"":""https://mail.google.com/""}".

Example test_xoauth2 :
  fst (step (xo_client None) (rt_client DXOAuth2) None []) = (Ok Running, xo_msg).
Proof. vm_compute. reflexivity. Qed.
Example test_auth_ok_behaviour_none :
  res_of (step (xo_client None) (xo_after (xo_client None)) None []) = Ok (Finished false).
Proof. vm_compute. reflexivity. Qed.
Example test_auth_ok_behaviour_some_empty :
  res_of (step (xo_client None) (xo_after (xo_client None)) (Some []) []) = Ok (Finished false).
Proof. vm_compute. reflexivity. Qed.
Example test_auth_fail_finishes :
  let e := xo_client (Some xo_error) in
  res_of (step e (xo_after e) (Some xo_error) []) = Ok (Finished true).
Proof. vm_compute. reflexivity. Qed.

(** * mechanisms/xoauth2/server.rs:122-203 *)
Definition rt_seen (c : ctx) (p : prop) (get : pval p -> bytes) (v : bytes) : bool :=
  match get_ref c p with Some x => bytes_eqb (get x) v | None => false end.
Definition xo_server (result : option bytes) : env :=
  rt_app (fun c _ =>
    CIs PXOAuth2Validate (fun b =>
      if b then
        if rt_seen c PAuthId (fun x => x) xo_user && rt_seen c POAuthBearerToken (fun x => x) xo_token
        then rt_try PXOAuth2Validate result (CRet None)
        else CRet (Some (EBoxed 1))
      else CRet None)) no_vcb.
Example xoauth2_server_test_successful :
  fst (step (xo_server None) (rt_server DXOAuth2) (Some xo_msg) []) = (Ok (Finished false), []).
Proof. vm_compute. reflexivity. Qed.
Example xoauth2_server_test_errored :
  fst (step (xo_server (Some xo_error)) (rt_server DXOAuth2) (Some xo_msg) [])
  = (Ok Running, xo_error).
Proof. vm_compute. reflexivity. Qed.

(** * mechanisms/login/client.rs:54-77 *)
Example login_simple_combination :
  let e := rt_app (fun _ _ => credentials_cb None (lit "testuser") (lit "password")) no_vcb in
  let r1 := step e (rt_client DLogin) None [] in
  let r2 := step e (ses_of r1) None [] in
  (exists st, fst r1 = (Ok st, lit "testuser")) /\ (exists st, fst r2 = (Ok st, lit "password")).
Proof. vm_compute. split; eexists; reflexivity. Qed.

(** * mechanisms/oauthbearer/server.rs:86-175 *)
Definition ob_msg : bytes :=
  lit "n,a=username@host.tld," ++ [chr 1]
  ++ lit "auth=ya29.vF9dft4qmTc2Nvb3RlckBhdHRhdmlzdGEuY29tCg" ++ [chr 1; chr 1].
Definition ob_server (result : option oberr) : env :=
  rt_app (fun c _ =>
    CIs POAuthBearerValidate (fun b =>
      if b then
        if rt_seen c PAuthzId (fun x => x) xo_user && rt_seen c POAuthBearerToken (fun x => x) xo_token
        then rt_try POAuthBearerValidate result (CRet None)
        else CRet (Some (EBoxed 1))
      else CRet None)) no_vcb.
Example oauthbearer_server_test_successful :
  fst (step (ob_server None) (rt_server DOAuthBearer) (Some ob_msg) []) = (Ok (Finished false), []).
Proof. vm_compute. reflexivity. Qed.
Example oauthbearer_server_test_errored :
  let err := mk_oberr (lit "invalid_token") None None in
  let e := ob_server (Some err) in
  let r := step e (rt_server DOAuthBearer) (Some ob_msg) [] in
  res_of r = Ok Running /\ e_json_from e (out_of r) = Some err.
Proof. vm_compute. split; reflexivity. Qed.

(** * mechanisms/scram/mechinfo.rs:325-408 *)
Definition rt_chosen (supported : list mechanism) (offered : list bytes) : option bytes :=
  match client_start supported true default_prefer offered with
  | Ok (_, m) => Some (d_name m)
  | _ => None
  end.
Example scram_sha1_plus_selection :
  let sup := [DScram SHA1 false; DScram SHA1 true] in
  rt_chosen sup [lit "SCRAM-SHA-1-PLUS"; lit "SCRAM-SHA-1"] = Some (lit "SCRAM-SHA-1-PLUS") /\
  rt_chosen sup [lit "SCRAM-SHA-1"; lit "SCRAM-SHA-1-PLUS"] = Some (lit "SCRAM-SHA-1-PLUS").
Proof. vm_compute. split; reflexivity. Qed.
Example scram_sha2_plus_selection :
  let sup := [DScram SHA256 false; DScram SHA256 true] in
  rt_chosen sup [lit "SCRAM-SHA-256-PLUS"; lit "SCRAM-SHA-256"] = Some (lit "SCRAM-SHA-256-PLUS") /\
  rt_chosen sup [lit "SCRAM-SHA-256"; lit "SCRAM-SHA-256-PLUS"] = Some (lit "SCRAM-SHA-256-PLUS").
Proof. vm_compute. split; reflexivity. Qed.

(** * mechanisms/scram/parser.rs:590-613 *)
Example test_parse_gs2_cbind_flag :
  forall i o, In (i, o)
    [(lit "n", CbNotSupported); (lit "y", CbSupportedNotUsed);
     (lit "p=tls-unique", CbUsed (lit "tls-unique")); (lit "p=.", CbUsed (lit "."));
     (lit "p=-", CbUsed (lit "-")); (lit "p=a", CbUsed (lit "a"));
     (lit "p=a-very-long-cb-name.indeed", CbUsed (lit "a-very-long-cb-name.indeed"))] ->
  cbflag_parse i = Ok o.
Proof.
  intros i o H. repeat (destruct H as [H|H]; [injection H as <- <-; vm_compute; reflexivity|]).
  destruct H.
Qed.

(** * mechanisms/plain/client.rs:64-212 *)
Definition pl_result (authzid : option bytes) (authid password : bytes) : res serr state * bytes :=
  fst (step (rt_app (fun _ _ =>
      let rest := rt_try PAuthId authid (rt_try PPassword password (CRet None)) in
      match authzid with Some z => rt_try PAuthzId z rest | None => rest end) no_vcb)
    (rt_client DPlain) None []).
Example test_simple_plain :
  pl_result None (lit "testuser") (lit "secret")
    = (Ok (Finished true), [chr 0] ++ lit "testuser" ++ [chr 0] ++ lit "secret") /\
  pl_result (Some (lit "authzid")) (lit "testuser") (lit "secret")
    = (Ok (Finished true), lit "authzid" ++ [chr 0] ++ lit "testuser" ++ [chr 0] ++ lit "secret") /\
  pl_result None (lit "«küßî»") (lit "“ЌύБЇ”")
    = (Ok (Finished true), [chr 0] ++ lit "«küßî»" ++ [chr 0] ++ lit "“ЌύБЇ”").
Proof. vm_compute. repeat split; reflexivity. Qed.
Example reject_null_bytes :
  fst (pl_result (Some (lit "authzid" ++ [chr 0] ++ lit "containsnull")) (lit "authid") (lit "password"))
    = Err (EMech (MPlain PlContainsNull)) /\
  fst (pl_result (Some (lit "authzid")) (lit "auth" ++ [chr 0] ++ lit "id") (lit "password"))
    = Err (EMech (MPlain PlContainsNull)) /\
  fst (pl_result (Some (lit "authzid")) (lit "authid") (lit "pass" ++ [chr 0] ++ lit "word"))
    = Err (EMech (MPlain PlContainsNull)).
Proof. vm_compute. repeat split; reflexivity. Qed.
Example password_as_is :
  let p := map chr [128; 192; 224; 240; 248; 252; 254; 255]%N in
  pl_result None (lit "a") p = (Ok (Finished true), [chr 0] ++ lit "a" ++ [chr 0] ++ p).
Proof. vm_compute. reflexivity. Qed.
Example reject_empty_authid_password :
  fst (pl_result None [] (lit "password")) = Err (EMech (MPlain PlEmpty)) /\
  fst (pl_result None (lit "authid") []) = Err (EMech (MPlain PlEmpty)).
Proof. vm_compute. split; reflexivity. Qed.
Example empty_authzid_is_no_authzid :
  let o := [chr 0] ++ lit "authid" ++ [chr 0] ++ lit "password" in
  pl_result (Some []) (lit "authid") (lit "password") = (Ok (Finished true), o) /\
  pl_result None (lit "authid") (lit "password") = (Ok (Finished true), o).
Proof. vm_compute. split; reflexivity. Qed.

(** * mechanisms/external/client.rs:27-83, mechanisms/anonymous/client.rs:25-78 *)
Definition rt_token (d : mechanism) (p : prop) (v : option (pval p)) : res serr state * bytes :=
  fst (step (rt_app (fun _ _ =>
      match v with Some v => rt_try p v (CRet None) | None => CRet None end) no_vcb)
    (rt_client d) None []).
Definition rt_texts : list bytes :=
  [[]; lit "heylookanauthzid"; lit "cn=this,ou=authzid,ou=has,o=weirdformatting"; lit "«küßî»";
   lit "“ЌύБЇ”"].
Example test_external :
  map (fun z => rt_token DExternal PAuthzId (Some z)) rt_texts
  = map (fun z => (Ok (Finished true), z)) rt_texts.
Proof. vm_compute. reflexivity. Qed.
Example test_no_authzid : rt_token DExternal PAuthzId None = (Ok (Finished true), []).
Proof. vm_compute. reflexivity. Qed.
Example anonymous_test_with_token :
  rt_token DAnonymous PAnonymousToken (Some (lit "thisisatoken"))
    = (Ok (Finished true), lit "thisisatoken") /\
  rt_token DAnonymous PAnonymousToken (Some []) = (Ok (Finished true), []).
Proof. vm_compute. split; reflexivity. Qed.
Example anonymous_test_no_token :
  rt_token DAnonymous PAnonymousToken None = (Ok (Finished true), []).
Proof. vm_compute. reflexivity. Qed.

(** * mechanisms/external/server.rs:36-113, mechanisms/anonymous/server.rs:37-114 *)
Definition rt_validates (d : mechanism) (p : prop) (get : pval p -> bytes) (expected : bytes)
    (input : option bytes) : res serr state * bytes :=
  fst (step (rt_app (fun _ _ => CRet None)
      (fun c => VRet (if rt_seen c p get expected then None else Some (VBoxed 1))))
    (rt_server d) input []).
Example external_test_successful :
  map (fun z => rt_validates DExternal PAuthzId (fun x => x) z (Some z)) rt_texts
  = map (fun z => (Ok (Finished false), [])) rt_texts.
Proof. vm_compute. reflexivity. Qed.
Example external_test_reject_invalid :
  rt_validates DExternal PAuthzId (fun x => x) (lit "expectedauthzid") (Some [])
    = (Err (EValidation (VBoxed 1)), []) /\
  rt_validates DExternal PAuthzId (fun x => x) [] (Some (lit "someunexpectedauthzid"))
    = (Err (EValidation (VBoxed 1)), []).
Proof. vm_compute. split; reflexivity. Qed.
Example external_test_no_input :
  rt_validates DExternal PAuthzId (fun x => x) [] None = (Ok (Finished false), []).
Proof. vm_compute. reflexivity. Qed.
Example anonymous_test_successful :
  map (fun z => rt_validates DAnonymous PAnonymousToken (fun x => x) z (Some z))
    [[]; lit "thisisatesttoken"; lit "«küßî»"; lit "“ЌύБЇ”"]
  = repeat (Ok (Finished false), []) 4.
Proof. vm_compute. reflexivity. Qed.
Example anonymous_test_reject_invalid :
  rt_validates DAnonymous PAnonymousToken (fun x => x) (lit "token") (Some [])
    = (Err (EValidation (VBoxed 1)), []) /\
  rt_validates DAnonymous PAnonymousToken (fun x => x) [] (Some (lit "someunexpectedtoken"))
    = (Err (EValidation (VBoxed 1)), []).
Proof. vm_compute. split; reflexivity. Qed.
Example anonymous_test_no_input :
  rt_validates DAnonymous PAnonymousToken (fun x => x) [] None = (Ok (Finished false), []).
Proof. vm_compute. reflexivity. Qed.

(** * context.rs:207-228 *)
Example test_thisprovider :
  get_ref (this_provider (PCustom 0) (lit "hello ")) (PCustom 0) = Some (lit "hello ") /\
  get_ref (this_provider (PCustom 0) (lit "world!")) (PCustom 0) = Some (lit "world!").
Proof. vm_compute. split; reflexivity. Qed.

(** * vectored_io.rs:73-124: a writer that takes at most what is left of five bytes from the
    first buffer. *)
Example test_with_split_writer :
  let '(r, _, w) := write_all_vectored (L := unit) [lit "dead"; lit "beef"; lit "cafe"; lit "babe"] tt
    (mk_world [] [WAccept 4; WAccept 1; WAccept 3; WAccept 2; WAccept 2; WAccept 3; WAccept 1] []
       0 None) in
  r = Ok 16 /\ w_out w = lit "deadbeefcafebabe".
Proof. vm_compute. split; reflexivity. Qed.

(** * mechname.rs:181-218 *)
Example test_mechname :
  map mn_parse [lit "PLAIN"; lit "SCRAM-SHA256-PLUS"; lit "GS2-KRB5-PLUS"; lit "XOAUTHBEARER";
    lit "EXACTLY_20_CHAR_LONG"; lit "X-THIS-MECHNAME-IS-TOO-LONG"; lit "EXACTLY_21_CHARS_LONG"]
  = map Ok [lit "PLAIN"; lit "SCRAM-SHA256-PLUS"; lit "GS2-KRB5-PLUS"; lit "XOAUTHBEARER";
    lit "EXACTLY_20_CHAR_LONG"; lit "X-THIS-MECHNAME-IS-TOO-LONG"; lit "EXACTLY_21_CHARS_LONG"] /\
  map mn_parse [lit "PLAIN GSSAPI LOGIN"; lit "SCRAM-SHA256-PLUS GSSAPI X-OAUTH2";
    lit "X-CONTAINS-NULL" ++ [chr 0]; lit "PLAIN" ++ [chr 0]; lit "X-lowercase"; lit "X-LÄTIN1"]
  = [Err (MnInvalidChar 5 " "%char); Err (MnInvalidChar 17 " "%char); Err (MnInvalidChar 15 (chr 0));
     Err (MnInvalidChar 5 (chr 0)); Err (MnInvalidChar 2 "l"%char); Err (MnInvalidChar 3 (chr 195))].
Proof. vm_compute. split; reflexivity. Qed.

(** * channel_bindings.rs:43-91: ThisCb (lines 23-41) knows one kind of channel binding. *)
Definition this_cb (name data : bytes) (n : bytes) : option bytes :=
  if bytes_eqb name n then Some data else None.
Example test_this_cb :
  let e := ex_env (fun _ => credentials_cb None [] []) no_vcb (this_cb (lit "this-cb") (lit "foobar")) in
  client_start (credentials_registry false) false default_prefer [lit "PLAIN"]
    = Ok (Builtin XPlainC, DPlain) /\
  fst (fst (need_cb_data (L := unit) e (lit "this-cb") [] ret tt w0)) = Ok (lit "foobar") /\
  fst (fst (need_cb_data (L := unit) e (lit "blahblubb") [] ret tt w0))
    = Err (EMissingChannelBindingData (lit "blahblubb")).
Proof. vm_compute. repeat split; reflexivity. Qed.
