(** The example applications in /repo/examples. *)
From Verif Require Import Bytes Types World Scram Registry.

(** examples/server_plain.rs:59-67 and server_scram.rs:54-63: the value of TestValidation,
    Result<String, AuthError>. *)
Inductive verdict := Accepted (user : bytes) | AuthzBad | PasswdBad | NoSuchUser.

(** Validation values are byte strings in the model: an injective encoding. *)
Definition verdict_value (v : verdict) : bytes :=
  match v with
  | Accepted user => lit "+" ++ user
  | AuthzBad => lit "-authz"
  | PasswdBad => lit "-passwd"
  | NoSuchUser => lit "-user"
  end.

(** The tag of TestValidation. *)
Definition test_validation : nat := 1.

(** [authzid.is_none() || authzid == Some(authid)]. *)
Definition may_act (authzid : option bytes) (authid : bytes) : bool :=
  match authzid with None => true | Some z => bytes_eqb z authid end.

(** examples/server_plain.rs:20-52 test_validate. Where a property is missing the code panics;
    here it fails instead (PLAIN contexts have both, C48). *)
Definition plain_app_validate (c : ctx) : verr + bytes :=
  match get_ref c PAuthId, get_ref c PPassword with
  | Some authid, Some password =>
      inr (verdict_value
        (if negb (may_act (get_ref c PAuthzId) authid) then AuthzBad
         else if bytes_eqb authid (lit "username") && bytes_eqb password (lit "secret")
         then Accepted authid
         else if bytes_eqb authid (lit "username") then PasswdBad
         else NoSuchUser))
  | _, _ => inl VMissingRequiredProperty
  end.

(** examples/server_plain.rs:74-92 validate. *)
Definition plain_app_vcb (_ : list event) (sd : sdata) (c : ctx) : vprog :=
  if bytes_eqb (sd_mech sd) (lit "PLAIN") then
    VWith test_validation (plain_app_validate c) (fun r => VRet r)
  else VRet None.

(** callback.rs:78-87 the default callback. *)
Definition default_cb (_ : list event) (_ : sdata) (_ : ctx) (_ : reqkind) : cbprog := CRet None.

(** examples/server_scram.rs:28-50 test_validate. *)
Definition scram_app_validate (c : ctx) : verr + bytes :=
  match get_ref c PAuthId with
  | Some authid =>
      inr (verdict_value
        (if negb (may_act (get_ref c PAuthzId) authid) then AuthzBad
         else if bytes_eqb authid (lit "username") then Accepted authid
         else NoSuchUser))
  | None => inl VMissingRequiredProperty
  end.

(** examples/server_scram.rs:67-83 callback; [sp] is the stored password made from the fields
    of OurCallback. *)
Definition scram_app_cb (sp : stored) (_ : list event) (_ : sdata) (c : ctx) (_ : reqkind)
  : cbprog :=
  match get_ref c PAuthId with
  | Some user =>
      if bytes_eqb user (lit "username")
      then CSatisfy PScramStoredPassword sp (fun r => CRet r)
      else CRet None
  | None => CRet None
  end.

(** examples/server_scram.rs:85-101 validate. *)
Definition scram_app_vcb (_ : list event) (sd : sdata) (c : ctx) : vprog :=
  match strip_prefix (lit "SCRAM-") (sd_mech sd) with
  | Some _ => VWith test_validation (scram_app_validate c) (fun r => VRet r)
  | None => VRet None
  end.

(** examples/server_scram.rs:103-116: the stored password computed at startup. *)
Definition scram_app_stored (e : env) : stored :=
  let '(client_key, server_key) :=
    derive_keys e SHA256 (e_pbkdf2 e SHA256 (lit "secret") (lit "bad salt") 4096) in
  mk_stored 4096 (lit "bad salt") (e_hash e SHA256 client_key) server_key.

(** A session of an application: its callbacks and Validation type, the rest as in [e]. *)
Definition with_app (e : env) (sd : sdata) (cb : list event -> sdata -> ctx -> reqkind -> cbprog)
    (vcb : list event -> sdata -> ctx -> vprog) : env :=
  mk_env sd cb vcb test_validation (e_chan e) (e_rng e) (e_hash e) (e_hmac e)
    (e_pbkdf2 e) (e_saslprep e) (e_json_to e) (e_json_from e) (e_gss_name e) (e_gss_cred e)
    (e_gss_step e) (e_gss_complete e) (e_gss_flags e) (e_gss_wrap e) (e_gss_unwrap e).
Definition server_plain (e : env) : env :=
  with_app e (mk_sdata (lit "PLAIN") SServer) default_cb plain_app_vcb.
Definition server_scram (e : env) (name : bytes) : env :=
  with_app e (mk_sdata name SServer) (scram_app_cb (scram_app_stored e)) scram_app_vcb.

(** examples/client_simple.rs:13-31: [read_line] keeps the line terminator, and the lines are
    used as they are. *)
Definition client_simple_cb (user_line password_line : bytes) : cbprog :=
  credentials_cb None user_line password_line.
