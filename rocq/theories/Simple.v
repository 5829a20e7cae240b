(** The one- and two-step mechanisms PLAIN, LOGIN, EXTERNAL and ANONYMOUS. *)
From Verif Require Import Bytes Utf8 Types World.
Open Scope m_scope.

Definition nul : byte := zero.
Definition is_nul (b : byte) : bool := beq b nul.

(** * PLAIN *)

(** plain/client.rs:14-61. *)
Definition plain_client_step (e : env) (_input : option bytes) : M unit state :=
  maybe_need_with e PAuthzId empty_provider (fun authzid : bytes =>
    if contains nul authzid then fail (EMech (MPlain PlContainsNull))
    else write_all authzid) ;;;
  write_all [nul] ;;;
  need_with e PAuthId empty_provider (fun authid : bytes =>
    match authid with
    | [] => fail (EMech (MPlain PlEmpty))
    | _ => if contains nul authid then fail (EMech (MPlain PlContainsNull))
           else write_all authid
    end) ;;;
  write_all [nul] ;;;
  need_with e PPassword empty_provider (fun password : bytes =>
    match password with
    | [] => fail (EMech (MPlain PlEmpty))
    | _ => if contains nul password then fail (EMech (MPlain PlContainsNull))
           else write_all password
    end) ;;;
  ret (Finished true).

(** plain/server.rs:11-23 PlainProvider. *)
Definition plain_provider (authcid authzid password : bytes) : ctx :=
  [mk_entry PAuthId authcid; mk_entry PPassword password; mk_entry PAuthzId authzid].

(** plain/server.rs:36-50: length check and split into exactly three parts. *)
Definition plain_split (input : bytes) : option (bytes * bytes * bytes) :=
  if Nat.ltb (length input) 4 then None
  else match split is_nul input with
       | [authzid; authcid; password] => Some (authzid, authcid, password)
       | _ => None
       end.

(** plain/server.rs:28-88. *)
Definition plain_server_step (e : env) (input : option bytes) : M unit state :=
  match input with
  | None => fail EInputDataRequired
  | Some input =>
      match plain_split input with
      | None => fail (EMech (MPlain PlBadFormat))
      | Some (authzid, authcid, password) =>
          match from_utf8 authzid with
          | None => fail (EMech (MPlain PlBadAuthzid))
          | Some authzid =>
          match from_utf8 authcid with
          | None => fail (EMech (MPlain PlBadAuthcid))
          | Some authcid =>
          match e_saslprep e authcid with
          | None => fail (EMech (MPlain PlSaslprep))
          | Some [] => fail (EMech (MPlain PlEmpty))
          | Some authcid =>
              match from_utf8 password with
              | Some password =>
                  match e_saslprep e password with
                  | None => fail (EMech (MPlain PlSaslprep))
                  | Some [] => fail (EMech (MPlain PlEmpty))
                  | Some password =>
                      validate e (plain_provider authcid authzid password) ;;;
                      ret (Finished false)
                  end
              | None =>
                  match password with
                  | [] => fail (EMech (MPlain PlEmpty))
                  | _ => validate e (plain_provider authcid authzid password) ;;;
                         ret (Finished false)
                  end
              end
          end
          end
          end
      end
  end.

(** * LOGIN *)

(** login/client.rs:8-13. *)
Inductive login_cst := LcAuthid | LcPassword | LcDone.

(** login/client.rs:26-51. *)
Definition login_client_step (e : env) (_input : option bytes) : M login_cst state :=
  st <- getl ;;
  match st with
  | LcAuthid =>
      need_with e PAuthId empty_provider (fun authid : bytes => write_all authid) ;;;
      setl LcPassword ;;;
      ret Running
  | LcPassword =>
      need_with e PPassword empty_provider (fun password : bytes => write_all password) ;;;
      setl LcDone ;;;
      ret (Finished true)
  | LcDone => fail EMechanismDone
  end.

(** login/server.rs:27-33. *)
Inductive login_sst := LsNew | LsUser | LsPass (username : bytes) | LsDone.

Definition login_prompt1 : bytes := lit "User Name" ++ [nul].
Definition login_prompt2 : bytes := lit "Password" ++ [nul].

(** login/server.rs:72-82 LoginProvider. *)
Definition login_provider (authid password : bytes) : ctx :=
  [mk_entry PAuthId authid; mk_entry PPassword password].

(** login/server.rs:43-96. *)
Definition login_server_step (e : env) (input : option bytes) : M login_sst state :=
  st <- getl ;;
  match st with
  | LsNew =>
      write_all login_prompt1 ;;;
      setl LsUser ;;;
      ret Running
  | LsUser =>
      match input with
      | None => fail EInputDataRequired
      | Some input =>
          match from_utf8 input with
          | None => fail (EMech MLoginUtf8)
          | Some username =>
              write_all login_prompt2 ;;;
              setl (LsPass username) ;;;
              ret Running
          end
      end
  | LsPass username =>
      match input with
      | None => fail EInputDataRequired
      | Some input =>
          validate e (login_provider username input) ;;;
          setl LsDone ;;;
          ret (Finished false)
      end
  | LsDone => fail EMechanismDone
  end.

(** * EXTERNAL *)

(** external/client.rs:12-24. *)
Definition external_client_step (e : env) (_input : option bytes) : M unit state :=
  maybe_need_with e PAuthzId empty_provider (fun authzid : bytes => write_all authzid) ;;;
  ret (Finished true).

Definition unwrap_or_empty (i : option bytes) : bytes :=
  match i with Some x => x | None => [] end.

(** external/server.rs:23-33. *)
Definition external_server_step (e : env) (input : option bytes) : M unit state :=
  match from_utf8 (unwrap_or_empty input) with
  | None => fail (EMech MExternalUtf8)
  | Some authzid =>
      validate e (this_provider PAuthzId authzid) ;;;
      ret (Finished false)
  end.

(** * ANONYMOUS *)

(** anonymous/client.rs:11-22. *)
Definition anonymous_client_step (e : env) (_input : option bytes) : M unit state :=
  maybe_need_with e PAnonymousToken empty_provider (fun token : bytes => write_all token) ;;;
  ret (Finished true).

(** anonymous/server.rs:22-34. *)
Definition anonymous_server_step (e : env) (input : option bytes) : M unit state :=
  match from_utf8 (unwrap_or_empty input) with
  | None => fail (EMech MAnonymousUtf8)
  | Some token =>
      validate e (this_provider PAnonymousToken token) ;;;
      ret (Finished false)
  end.
