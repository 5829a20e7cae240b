(** What the interop programs report. *)
From Coq Require Import List.
From Verif Require Import Bytes Base64 Types World Scram Spec_Scram Interop.

(** The line that ends a successful exchange. *)
Definition valid_line (user : bytes) (authzid password : option bytes) : bytes :=
  lit "OK VALID authid=" ++ user
  ++ match authzid with Some z => lit " authzid=" ++ z | None => [] end
  ++ match password with Some p => lit " password=" ++ p | None => [] end.

(** What the client and the server of a SCRAM exchange sign. *)
Definition interop_message (e1 e2 : env) : bytes :=
  exchange_message (lit "username") (nonce_from e1 0) (nonce_from e2 0)
    (encode (st_salt interop_stored)) (lit "4096") (lit "biws").
