(** RFC 5802 sections 2.2 and 3 with the hash functions in use. *)
From Verif Require Import Bytes Types World Spec_Wire Sha.

(** INT(1): the number one in four octets, most significant octet first. *)
Definition int_one : bytes := [zero; zero; zero; chr 1].

(** U1, U2, ... of Hi; [rfc_u prf p salt n] is U(n+1). *)
Fixpoint rfc_u (prf : bytes -> bytes -> bytes) (p salt : bytes) (n : nat) : bytes :=
  match n with
  | O => prf p (salt ++ int_one)
  | S n => prf p (rfc_u prf p salt n)
  end.

(** Hi(p, salt, i) = U1 XOR U2 XOR ... XOR Ui *)
Definition rfc_hi (prf : bytes -> bytes -> bytes) (p salt : bytes) (i : N) : bytes :=
  fold_left xor_text (map (rfc_u prf p salt) (seq 1 (N.to_nat i - 1))) (rfc_u prf p salt 0).

(** StoredKey and ServerKey for the password [p], after whatever preparation was made. *)
Definition rfc_stored (a : alg) (p : bytes) (sp : stored) : Prop :=
  let salted := rfc_hi (hmac a) p (st_salt sp) (st_iterations sp) in
  st_stored_key sp = hash a (hmac a salted (lit "Client Key")) /\
  st_server_key sp = hmac a salted (lit "Server Key").
