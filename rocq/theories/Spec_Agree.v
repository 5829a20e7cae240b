(** Vocabulary for C77 and C78: what the two ends of a SCRAM exchange believe when an attacker
    carries, changes or replaces their messages. *)
From Verif Require Import Bytes Types World Base64 OAuth ScramParser Scram Session Spec_Simple
  Spec_OAuth Spec_Wire Spec_ScramText Spec_Scram.

(** One end's idea of the exchange. Names, salt and iteration count are in the form they have
    on the wire. *)
Record view := mk_view {
  v_flag : cbflag; v_authzid : option bytes; v_user : bytes; v_client_nonce : bytes;
  v_server_nonce : bytes; v_salt : bytes; v_iterations : bytes; v_binding : bytes }.

(** The channel binding input of RFC 5802: GS2 header and binding data. *)
Definition view_binding (v : view) : bytes := gs2_text (v_flag v) (v_authzid v) ++ v_binding v.

Definition view_nonce (v : view) : bytes := v_client_nonce v ++ v_server_nonce v.
Definition view_first (v : view) : bytes := first_bare (v_user v) (v_client_nonce v).
Definition view_challenge (v : view) : bytes :=
  server_first_text (view_nonce v) (v_salt v) (v_iterations v).
Definition view_final (v : view) : bytes := final_bare (encode (view_binding v)) (view_nonce v).

(** What proof and signature are made over. *)
Definition view_message (v : view) : bytes :=
  rfc_auth_message (view_first v) (view_challenge v) (view_final v).

(** A client with view [v] and client key [ck] sent [m1] and [m3] and got [m2] in between. *)
Definition client_saw (e : env) (a : alg) (v : view) (ck m1 m2 m3 : bytes) : Prop :=
  m1 = gs2_text (v_flag v) (v_authzid v) ++ view_first v /\
  m2 = view_challenge v /\
  m3 = view_final v ++ lit ",p=" ++ encode (client_proof e a ck (view_message v)).

(** A server with view [v] got [m1] and [m3] and sent [m2] in between. Of the messages it got it
    ignores the two bytes before the authorization identity, the attributes [t] after the nonce
    and the extensions [exts]; [p64] is the proof. *)
Definition server_saw (v : view) (two t p64 : bytes) (exts : list bytes) (m1 m2 m3 : bytes) : Prop :=
  client_first_fields m1 (v_flag v) two (v_authzid v) (v_user v) (v_client_nonce v) t /\
  m2 = view_challenge v /\
  final_fields m3 (encode (view_binding v)) (view_nonce v) p64 exts.

(** Two different messages have the same HMAC under keys [k] and [k']. *)
Definition hmac_collision (e : env) (a : alg) (k x k' y : bytes) : Prop :=
  x <> y /\ e_hmac e a k x = e_hmac e a k' y.

(** Two different strings have the same hash. *)
Definition hash_collision (e : env) (a : alg) (x y : bytes) : Prop :=
  x <> y /\ e_hash e a x = e_hash e a y.

(** The client key that a server with view [v'] takes from the proof of a client with view [v]. *)
Definition key_seen (e : env) (a : alg) (ck : bytes) (v v' : view) : bytes :=
  xor_text (client_proof e a ck (view_message v)) (e_hmac e a (e_hash e a ck) (view_message v')).

(** [m] ends in the proof [p64]. *)
Definition ends_in_proof (m p64 : bytes) : Prop :=
  exists x, m = x ++ lit ",p=" ++ p64 /\ free ","%char p64.

(** The channel binding data that belongs to the flag a client sent. *)
Definition client_flag_data (e : env) (evs : list event) (f : cbflag) (data : bytes) : Prop :=
  match f with CbUsed name => client_binding e evs name data | _ => data = [] end.
