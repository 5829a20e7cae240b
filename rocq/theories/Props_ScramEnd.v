(** C75. *)
From Coq Require Import List NArith.
From Verif Require Import Bytes Utf8 Base64 Num Types World CallbackSpec Simple OAuth ScramParser
  Scram Gssapi Session Spec_Simple Spec_ScramText Spec_Scram Spec_Wire ExampleEnv ExampleScram
  Proof_ScramEnd.
Import ListNotations.

(** C75: an entry for the user exists. *)
Theorem C75_outcomes : forall ec es sc ss a plus splus input f data user uesc z zesc p sp,
  s_mech sc = XScramC a (Some (ScInitial plus)) ->
  s_mech ss = XScramS a (Some (SsClientFirst splus)) ->
  crypto_ok es -> same_crypto ec es ->
  client_can_bind ec plus f data -> server_can_bind es f data ->
  legal_flag f -> (f = CbSupportedNotUsed -> splus = false) ->
  provides ec PAuthId user -> escape user = Ok uesc -> utf8_valid user = true ->
  answers_with ec PAuthzId z -> escaped z zesc -> (forall x, z = Some x -> utf8_valid x = true) ->
  looks_up es uesc zesc (Some sp) -> usable a sp ->
  (1 <= st_iterations sp <= u32_max)%N ->
  gives_keys ec a p (st_salt sp) (st_iterations sp) ->
  validates_user es uesc zesc ->
  let salted := e_pbkdf2 es a p (st_salt sp) (st_iterations sp) in
  let am := exchange_message uesc (nonce_from ec (s_rng sc)) (nonce_from es (s_rng ss))
              (encode (st_salt sp)) (fmt_u32 (st_iterations sp)) (encode (gs2_text f zesc ++ data)) in
  let fits := proves es a (st_stored_key sp) am (client_proof es a (client_key_of es a salted) am) in
  let same := e_hmac es a (st_server_key sp) am = e_hmac es a (server_key_of es a salted) am in
  exists m1 m2 m3 m4 sc1 sc2 r sc3 ss1 ss2 evs,
    step ec sc input [] = (Ok Running, m1, sc1) /\
    step es ss (Some m1) [] = (Ok Running, m2, ss1) /\
    step ec sc1 (Some m2) [] = (Ok Running, m3, sc2) /\
    step es ss1 (Some m3) [] = (Ok (Finished true), m4, ss2) /\
    step ec sc2 (Some m4) [] = (r, [], sc3) /\
    m1 <> [] /\ new_events ss ss2 evs /\
    ((fits /\ (exists c, validations evs = [c] /\ offers_scram c uesc zesc) /\
      (same /\ r = Ok (Finished false) \/ ~ same /\ r = Err EMutualAuthenticationFailed)) \/
     (~ fits /\ validations evs = [] /\ s_val ss2 = s_val ss /\ m4 = lit "e=invalid-proof" /\
      r = Err (EMech (MScramServerError SeInvalidProof)))).
Proof. exact scram_outcomes. Qed.
Print Assumptions C75_outcomes.

(** C75: no entry exists. *)
Theorem C75_unknown : forall ec es sc ss a plus splus input f data user uesc z zesc p,
  s_mech sc = XScramC a (Some (ScInitial plus)) ->
  s_mech ss = XScramS a (Some (SsClientFirst splus)) ->
  crypto_ok ec ->
  client_can_bind ec plus f data -> server_can_bind es f data ->
  legal_flag f -> (f = CbSupportedNotUsed -> splus = false) ->
  provides ec PAuthId user -> escape user = Ok uesc -> utf8_valid user = true ->
  answers_with ec PAuthzId z -> escaped z zesc -> (forall x, z = Some x -> utf8_valid x = true) ->
  looks_up es uesc zesc None ->
  gives_keys ec a p (dummy_salt es (24 + s_rng ss)) 16384 ->
  exists m1 m2 m3 sc1 sc2 sc3 ss1 ss2 evs,
    step ec sc input [] = (Ok Running, m1, sc1) /\
    step es ss (Some m1) [] = (Ok Running, m2, ss1) /\
    step ec sc1 (Some m2) [] = (Ok Running, m3, sc2) /\
    step es ss1 (Some m3) [] = (Ok (Finished true), lit "e=unknown-user", ss2) /\
    step ec sc2 (Some (lit "e=unknown-user")) []
      = (Err (EMech (MScramServerError SeUnknownUser)), [], sc3) /\
    m1 <> [] /\ new_events ss ss2 evs /\ validations evs = [] /\ s_val ss2 = s_val ss.
Proof. exact scram_unknown. Qed.
Print Assumptions C75_unknown.

(** A client and a server, evaluated: what the server sends last, how the client ends and
    whether the server has validated. *)
Definition ex_run (ec es : env) : bytes * res serr state * nat :=
  let c1 := step ec (ex_c ClientNoSupport) None [] in
  let s1 := step es (ex_s false) (Some (out_of c1)) [] in
  let c2 := step ec (ses_of c1) (Some (out_of s1)) [] in
  let s2 := step es (ses_of s1) (Some (out_of c2)) [] in
  let c3 := step ec (ses_of c2) (Some (out_of s2)) [] in
  (firstn 2 (out_of s2), res_of c3, length (validations (s_trace (ses_of s2)))).
Definition ex_told (ec es : env) : bytes :=
  let c1 := step ec (ex_c ClientNoSupport) None [] in
  let s1 := step es (ex_s false) (Some (out_of c1)) [] in
  let c2 := step ec (ses_of c1) (Some (out_of s1)) [] in
  out_of (step es (ses_of s1) (Some (out_of c2)) []).
(** Keys matter more than messages to this HMAC. *)
Definition key_hmac (a : alg) (k x : bytes) : bytes :=
  firstn (hlen a) (rev (firstn 10 x) ++ k ++ repeat "m"%char (hlen a)).
Definition key_env (vals : list entry) : env :=
  mk_env (mk_sdata (lit "SCRAM-SHA-1") SClient) (fun _ _ _ _ => ex_cb vals) (fun _ _ _ => VRet None) 0
    ex_chan (fun n => N.of_nat (7 * n + 3)) ex_hash key_hmac ex_pbkdf2 (fun x => Some x)
    (fun o => ob_status o) (fun x => Some (mk_oberr x None None))
    (fun _ => true) true (fun c i => None) (fun c => false) (fun _ => None)
    (fun c conf m => None) (fun c m => None).
Definition key_stored : bytes := ex_hash SHA1 (key_hmac SHA1 ex_salted (lit "Client Key")).
Definition ex_with (password : bytes) : env :=
  key_env [mk_entry PAuthId (lit "user"); mk_entry PPassword password].
Definition ex_server (server_key : bytes) : env :=
  key_env [mk_entry PScramStoredPassword (mk_stored 4096 (lit "salt") key_stored server_key)].
Example C75_example :
  ex_run (ex_with (lit "secret")) (ex_server (key_hmac SHA1 ex_salted (lit "Server Key")))
  = (lit "v=", Ok (Finished false), 1) /\
  ex_run (ex_with (lit "secret")) (ex_server (repeat "x"%char 20))
  = (lit "v=", Err EMutualAuthenticationFailed, 1) /\
  ex_run (ex_with (lit "guess")) (ex_server (repeat "x"%char 20))
  = (lit "e=", Err (EMech (MScramServerError SeInvalidProof)), 0) /\
  ex_told (ex_with (lit "guess")) (ex_server (repeat "x"%char 20)) = lit "e=invalid-proof" /\
  ex_run (ex_with (lit "secret")) (key_env [])
  = (lit "e=", Err (EMech (MScramServerError SeUnknownUser)), 0) /\
  ex_told (ex_with (lit "secret")) (key_env []) = lit "e=unknown-user".
Proof. vm_compute. repeat split. Qed.
