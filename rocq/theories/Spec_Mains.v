(** Specification vocabulary for C124. *)
From Verif Require Import Bytes Base64 Types World Scram Session Spec_Scram.

(** The message both ends of server_scram.rs sign. *)
Definition main_message (e1 e2 : env) : bytes :=
  exchange_message (lit "username") (nonce_from e1 0) (nonce_from e2 0)
    (encode (lit "bad salt")) (lit "4096") (encode (lit "n,,")).

(** This password makes the same proof and expects the same signature as the password "secret" of the
    server; with a hash function worth its name only "secret" does. *)
Definition passes (e1 e2 : env) (password : bytes) : Prop :=
  let salted p := e_pbkdf2 e2 SHA256 p (lit "bad salt") 4096 in
  let client_key p := client_key_of e2 SHA256 (salted p) in
  let server_key p := server_key_of e2 SHA256 (salted p) in
  let am := main_message e1 e2 in
  proves e2 SHA256 (e_hash e2 SHA256 (client_key (lit "secret"))) am
    (client_proof e2 SHA256 (client_key password) am) /\
  e_hmac e2 SHA256 (server_key (lit "secret")) am = e_hmac e2 SHA256 (server_key password) am.
