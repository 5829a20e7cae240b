(** Vocabulary for C92: SCRAM peers that do what RFC 5802 says, whoever wrote them. *)
From Coq Require Import NArith.
From Verif Require Import Bytes Types World ScramParser Spec_Wire Spec_ScramText Spec_Scram Spec_Grammar.

(** SaltedPassword, StoredKey and ServerKey (RFC 5802, section 3). *)
Definition stored_key_of (e : env) (a : alg) (salted : bytes) : bytes :=
  e_hash e a (client_key_of e a salted).

(** What a client that knows the prepared password [p] answers to the server-first message [m2]:
    client-final-message-without-proof with the nonce of that message, the channel binding input
    [cbind] and the extensions [exts], and the proof over the whole conversation. *)
Definition rfc_answer (e : env) (a : alg) (p bare m2 cbind : bytes) (exts : list bytes) (m3 : bytes) : Prop :=
  exists nonce salt n sexts,
    is_server_first m2 nonce salt n sexts /\
    let without := final_bare (rfc_encode cbind) nonce ++ extensions_text exts in
    let am := rfc_auth_message bare m2 without in
    is_client_final m3 cbind nonce
      (client_proof e a (client_key_of e a (e_pbkdf2 e a p salt n)) am) exts.

(** A server that has the keys of password [p], salt [salt] and count [n] accepts the client's
    final message [m3]: nonce and channel binding input are the right ones, and
    H(ClientProof XOR HMAC(StoredKey, AuthMessage)) is the StoredKey. [am] is the AuthMessage. *)
Definition rfc_accepts (e : env) (a : alg) (p salt : bytes) (n : N) (bare m2 cbind nonce m3 am : bytes) : Prop :=
  exists proof exts, is_client_final m3 cbind nonce proof exts /\
    am = rfc_auth_message bare m2 (final_bare (rfc_encode cbind) nonce ++ extensions_text exts) /\
    let stored_key := stored_key_of e a (e_pbkdf2 e a p salt n) in
    e_hash e a (xor_text proof (e_hmac e a stored_key am)) = stored_key.
