(** XOAUTH2 and OAUTHBEARER. *)
From Verif Require Import Bytes Utf8 Types World Simple.
Open Scope m_scope.

Definition soh : byte := chr 1.
Definition comma : byte := ","%char.
Definition equals : byte := "="%char.
Definition is_soh (b : byte) : bool := beq b soh.
Definition is_comma (b : byte) : bool := beq b comma.
Definition is_equals (b : byte) : bool := beq b equals.

(** xoauth2/client.rs:17-22 and oauthbearer/client.rs:15-20: the same three states. *)
Inductive oauth_cst := OcInitial | OcWaiting | OcDone.
(** xoauth2/server.rs:17-21 and oauthbearer/server.rs:16-20. *)
Inductive oauth_sst := OsInitial | OsErrored.

(** * XOAUTH2 *)

Definition xo_auth : bytes := soh :: lit "auth=Bearer ".
Definition soh2 : bytes := [soh; soh].

(** xoauth2/client.rs:46-96. *)
Definition xoauth2_client_step (e : env) (input : option bytes) : M oauth_cst state :=
  st <- getl ;;
  match st with
  | OcInitial =>
      need_with e PAuthId empty_provider (fun authid : bytes =>
        write_all_vectored [lit "user="; authid; xo_auth] ;;; ret tt) ;;;
      need_with e POAuthBearerToken empty_provider (fun token : bytes =>
        write_all_vectored [token; soh2] ;;; ret tt) ;;;
      setl OcWaiting ;;;
      ret Running
  | OcWaiting =>
      setl OcDone ;;;
      match unwrap_or_empty input with
      | [] => ret (Finished false)
      | input =>
          match from_utf8 input with
          | None => fail (EMech MXOAuth2NotUtf8)
          | Some error =>
              action e PXOAuth2Error empty_provider error ;;;
              ret (Finished true)
          end
      end
  | OcDone => fail EMechanismDone
  end.

(** xoauth2/server.rs:72-97: the message syntax. *)
Definition xoauth2_parse (input : bytes) : res mecherr (bytes * bytes) :=
  match split_at_byte soh input with
  | None => Err MXOAuth2InvalidFormat
  | Some (userpart, tokenpart) =>
      match strip_prefix (lit "user=") userpart with
      | None => Err MXOAuth2InvalidFormat
      | Some raw_authid =>
          match strip_prefix xo_auth tokenpart with
          | None => Err MXOAuth2InvalidFormat
          | Some t =>
              match strip_suffix soh2 t with
              | None => Err MXOAuth2InvalidFormat
              | Some raw_token =>
                  match from_utf8 raw_authid with
                  | None => Err MXOAuth2NotUtf8
                  | Some authid =>
                      match from_utf8 raw_token with
                      | None => Err MXOAuth2NotUtf8
                      | Some token => Ok (authid, token)
                      end
                  end
              end
          end
      end
  end.

(** xoauth2/server.rs:50-60 Prov. *)
Definition xoauth2_provider (authid token : bytes) : ctx :=
  [mk_entry PAuthId authid; mk_entry POAuthBearerToken token].

(** xoauth2/server.rs:63-119. *)
Definition xoauth2_server_step (e : env) (input : option bytes) : M oauth_sst state :=
  st <- getl ;;
  match st with
  | OsInitial =>
      match input with
      | None => fail EInputDataRequired
      | Some input =>
          '(authid, token) <- of_res (rmap_err EMech (xoauth2_parse input)) ;;
          let prov := xoauth2_provider authid token in
          state <- need_with e PXOAuth2Validate prov (fun result : option bytes =>
            match result with
            | Some error => write_all error ;;; setl OsErrored ;;; ret Running
            | None => ret (Finished false)
            end) ;;
          validate e prov ;;;
          ret state
      end
  | OsErrored => ret (Finished false)
  end.

(** * OAUTHBEARER *)

(** oauthbearer/client.rs:45-51: one vectored write per pair. *)
Fixpoint ob_write_kv {L} (kv : list (bytes * bytes)) : M L unit :=
  match kv with
  | [] => ret tt
  | (k, v) :: r => write_all_vectored [[soh]; k; [equals]; v] ;;; ob_write_kv r
  end.

(** oauthbearer/client.rs:29-87. *)
Definition oauthbearer_client_step (e : env) (input : option bytes) : M oauth_cst state :=
  st <- getl ;;
  match st with
  | OcInitial =>
      write_all (lit "n,") ;;;
      maybe_need_with e PAuthzId empty_provider (fun authzid : bytes =>
        write_all (lit "a=") ;;; write_all authzid) ;;;
      write_all (lit ",") ;;;
      maybe_need_with e POAuthBearerKV empty_provider
        (fun kv : list (bytes * bytes) => ob_write_kv kv) ;;;
      need_with e POAuthBearerToken empty_provider (fun token : bytes =>
        write_all_vectored [xo_auth; token; soh2] ;;; ret tt) ;;;
      setl OcWaiting ;;;
      ret Running
  | OcWaiting =>
      setl OcDone ;;;
      match unwrap_or_empty input with
      | [] => ret (Finished false)
      | input =>
          match e_json_from e input with
          | None => fail (EMech MOAuthBearerSerde)
          | Some error =>
              action e POAuthBearerErrored empty_provider error ;;;
              ret (Finished true)
          end
      end
  | OcDone => fail EMechanismDone
  end.

(** oauthbearer/parser.rs:27-31 OAuthBearerMsg. *)
Record obmsg := mk_obmsg {
  om_authzid : option bytes; om_token : bytes; om_fields : list (bytes * bytes) }.

Definition utf8_or {A} (b : bytes) (k : bytes -> res obparseerr A) : res obparseerr A :=
  match from_utf8 b with Some s => k s | None => Err ObInvalidUtf8 end.

(** oauthbearer/parser.rs:55-70: the loop over the key/value parts. *)
Fixpoint ob_fields (parts : list bytes) (token : option bytes)
    (fields : list (bytes * bytes))
  : res obparseerr (option bytes * list (bytes * bytes)) :=
  match parts with
  | [] => Ok (token, fields)
  | kv :: r =>
      match strip_prefix (lit "auth=") kv with
      | Some t => utf8_or t (fun t => ob_fields r (Some t) fields)
      | None =>
          match split is_equals kv with
          | [key; val] =>
              utf8_or key (fun key => utf8_or val (fun val =>
                ob_fields r token (fields ++ [(key, val)])))
          | _ => Err ObInvalidKVPair
          end
      end
  end.

(** oauthbearer/parser.rs:33-81 OAuthBearerMsg::parse. Later gs2 parts (after the second
    comma) are ignored by the code. *)
Definition ob_parse (input : bytes) : res obparseerr obmsg :=
  match strip_suffix soh2 input with
  | None => Err ObMissingEnd
  | Some b =>
      match split is_soh b with
      | [] => Err ObMissingPart
      | gs2 :: it =>
          match split is_comma gs2 with
          | [] => Err ObInvalidGs2
          | first :: rest =>
              if negb (bytes_eqb first (lit "n")) then Err ObChannelBindings
              else match rest with
                   | [] => Err ObInvalidGs2
                   | za :: _ =>
                       rbind
                         (match za with
                          | [] => Ok None
                          | _ => match strip_prefix (lit "a=") za with
                                 | Some rem => utf8_or rem (fun s => Ok (Some s))
                                 | None => Err ObInvalidGs2
                                 end
                          end)
                         (fun authzid =>
                            rbind (ob_fields it None []) (fun tf =>
                              match fst tf with
                              | None => Err ObMissingToken
                              | Some t => Ok (mk_obmsg authzid t (snd tf))
                              end))
                   end
          end
      end
  end.

(** oauthbearer/server.rs:26-40 Prov: authzid only if present. *)
Definition oauthbearer_provider (m : obmsg) : ctx :=
  match om_authzid m with
  | Some a => [mk_entry PAuthzId a]
  | None => []
  end ++ [mk_entry POAuthBearerToken (om_token m); mk_entry POAuthBearerKV (om_fields m)].

(** [serde_json::to_writer(writer, error)] (oauthbearer/server.rs:67): the serialised text
    is written in one [write_all] (serde_json uses several; simplification), I/O errors are
    reported as a serde error. *)
Definition write_json {L} (e : env) (err : oberr) : M L unit :=
  fun l w => match write_all (e_json_to e err) l w with
             | (Ok _, l', w') => (Ok tt, l', w')
             | (Err _, l', w') => (Err (EMech MOAuthBearerSerde), l', w')
             | (Panic, l', w') => (Panic, l', w')
             end.

(** oauthbearer/server.rs:43-83. *)
Definition oauthbearer_server_step (e : env) (input : option bytes) : M oauth_sst state :=
  st <- getl ;;
  match st with
  | OsInitial =>
      match input with
      | None => fail EInputDataRequired
      | Some input =>
          msg <- of_res (rmap_err (fun x => EMech (MOAuthBearerParse x)) (ob_parse input)) ;;
          let prov := oauthbearer_provider msg in
          state <- need_with e POAuthBearerValidate prov (fun result : option oberr =>
            match result with
            | Some error => write_json e error ;;; setl OsErrored ;;; ret Running
            | None => ret (Finished false)
            end) ;;
          validate e prov ;;;
          ret state
      end
  | OsErrored => ret (Finished false)
  end.
