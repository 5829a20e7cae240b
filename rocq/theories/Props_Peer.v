(** Property theorems about SCRAM with peers that follow RFC 5802. *)
From Coq Require Import NArith Lia.
From Verif Require Import Bytes Utf8 Types World CallbackSpec Num OAuth ScramParser Scram Session Spec_Wire Spec_Simple Spec_OAuth
  Spec_ScramText Spec_Scram Spec_Grammar Spec_Peer ExampleEnv ExampleScram Proof_Peer Props_ScramExchange Props_Grammar.

(** ** C92 *)

(** A server accepts every client that knows the password and follows RFC 5802 without
    extensions, and answers with the signature RFC 5802 has that client expect. Missing for the
    full property: clients that send extensions, for which it is false (C92_server_refuted). *)
Theorem C92_server_partial : forall e s a plus f z user cn data p sp m1,
  s_mech s = XScramS a (Some (SsClientFirst plus)) -> crypto_ok e ->
  (f = CbSupportedNotUsed -> plus = false) -> server_can_bind e f data ->
  looks_up e user z (Some sp) -> stored_for e a p sp -> (1 <= st_iterations sp <= u32_max)%N ->
  validates_user e user z ->
  is_client_first m1 f z user cn [] ->
  exists m2 s1 sn, step e s (Some m1) [] = (Ok Running, m2, s1) /\ sn <> [] /\
    is_server_first m2 (cn ++ sn) (st_salt sp) (st_iterations sp) [] /\
    forall m3, rfc_answer e a p (first_bare user cn) m2 (gs2_text f z ++ data) [] m3 ->
    exists m4 s2, step e s1 (Some m3) [] = (Ok (Finished true), m4, s2) /\
      is_verifier m4 (e_hmac e a (server_key_of e a (e_pbkdf2 e a p (st_salt sp) (st_iterations sp)))
        (rfc_auth_message (first_bare user cn) m2
          (final_bare (rfc_encode (gs2_text f z ++ data)) (cn ++ sn)))) [] /\
      exists evs c, new_events s s2 evs /\ validations evs = [c] /\ offers_scram c user z.
Proof. exact accepts_rfc_client. Qed.
Print Assumptions C92_server_partial.

(** A client logs in to every server that has the keys of its password and follows RFC 5802
    without extensions and with an iteration count that fits 32 bits: that server accepts the
    proof, and the client accepts its signature. Missing for the full property: servers that send
    extensions, whose messages the client refuses (C85_server_first_extended,
    C85_verifier_extended). *)
Theorem C92_client_partial : forall e s a plus input f data user uesc z zesc p,
  s_mech s = XScramC a (Some (ScInitial plus)) -> crypto_ok e ->
  client_can_bind e plus f data -> legal_flag f ->
  provides e PAuthId user -> escape user = Ok uesc -> utf8_valid user = true ->
  answers_with e PAuthzId z -> escaped z zesc -> (forall x, z = Some x -> utf8_valid x = true) ->
  exists m1 s1 cn, step e s input [] = (Ok Running, m1, s1) /\
    is_client_first m1 f zesc uesc cn [] /\
    forall sn salt n m2, sn <> [] -> is_server_first m2 (cn ++ sn) salt n [] -> (n <= u32_max)%N ->
    gives_keys e a p salt n ->
    exists m3 s2 am, step e s1 (Some m2) [] = (Ok Running, m3, s2) /\
      rfc_accepts e a p salt n (first_bare uesc cn) m2 (gs2_text f zesc ++ data) (cn ++ sn) m3 am /\
      forall m4, is_verifier m4 (e_hmac e a (server_key_of e a (e_pbkdf2 e a p salt n)) am) [] ->
      exists s3, step e s2 (Some m4) [] = (Ok (Finished false), [], s3).
Proof. exact accepts_rfc_server. Qed.
Print Assumptions C92_client_partial.

(** A client that uses the extensions RFC 5802 lets it use is told that its proof is wrong,
    although it is not - unless the proof over the conversation is, by a coincidence of the hash
    functions, also one over the different conversation that the server verifies. *)
Theorem C92_extended : forall e s a plus f z user cn data p sp m1 exts1 exts3,
  s_mech s = XScramS a (Some (SsClientFirst plus)) -> crypto_ok e ->
  (f = CbSupportedNotUsed -> plus = false) -> server_can_bind e f data ->
  looks_up e user z (Some sp) -> stored_for e a p sp -> (1 <= st_iterations sp <= u32_max)%N ->
  is_client_first m1 f z user cn exts1 -> exts1 <> [] \/ exts3 <> [] ->
  exists m2 s1, step e s (Some m1) [] = (Ok Running, m2, s1) /\
    forall m3, rfc_answer e a p (first_bare user cn ++ extensions_text exts1) m2 (gs2_text f z ++ data) exts3 m3 ->
    reports s1 (step e s1 (Some m3) []) (lit "invalid-proof") \/
    exists am am', am <> am' /\
      proves e a (st_stored_key sp) am'
        (client_proof e a (client_key_of e a (e_pbkdf2 e a p (st_salt sp) (st_iterations sp))) am).
Proof. exact extended_rfc_client. Qed.
Print Assumptions C92_extended.

(** ** Examples *)

(** The messages of the example exchange are those of RFC 5802 peers. *)
Definition ex_cn : bytes := Eval vm_compute in skipn 32 ex_b1.
Definition ex_cbind : bytes := gs2_text (CbUsed (lit "tls-exporter")) (Some (lit "admin")) ++ lit "data".
Lemma ex_first : is_client_first ex_b1 (CbUsed (lit "tls-exporter")) (Some (lit "admin")) (lit "user") ex_cn [].
Proof.
  split; [vm_compute; reflexivity|]. split; [split; [discriminate|reflexivity]|]. split.
  { intros x [= <-]. split; [apply ex_value; [discriminate|reflexivity..]|discriminate]. }
  split; [split; [apply ex_value; [discriminate|reflexivity..]|discriminate]|].
  split; [apply ex_nonce; [discriminate|reflexivity]|constructor].
Qed.
Lemma ex_second : is_server_first ex_b2 (firstn 48 (skipn 2 ex_b2)) (lit "salt") 4096 [].
Proof. apply C85_server_first_example. Qed.

Example C92_example :
  is_client_first ex_b1 (CbUsed (lit "tls-exporter")) (Some (lit "admin")) (lit "user") ex_cn [] /\
  rfc_answer ex_sv SHA1 (lit "secret") (first_bare (lit "user") ex_cn) ex_b2 ex_cbind [] ex_b3.
Proof.
  split; [exact ex_first|]. exists (firstn 48 (skipn 2 ex_b2)), (lit "salt"), 4096%N, [].
  split; [exact ex_second|]. cbv zeta. split; [vm_compute; reflexivity|].
  split; [apply ex_nonce; [discriminate|reflexivity]|constructor].
Qed.

(** The same client with an extension in its last message. *)
Definition ex_extended3 : bytes := Eval vm_compute in
  let without := final_bare (rfc_encode ex_cbind) (firstn 48 (skipn 2 ex_b2)) ++ extensions_text [lit "x=1"] in
  without ++ lit ",p=" ++ rfc_encode (client_proof ex_sv SHA1
    (client_key_of ex_sv SHA1 (e_pbkdf2 ex_sv SHA1 (lit "secret") (lit "salt") 4096))
    (rfc_auth_message (first_bare (lit "user") ex_cn) ex_b2 without)).
Example C92_extended_example :
  rfc_answer ex_sv SHA1 (lit "secret") (first_bare (lit "user") ex_cn) ex_b2 ex_cbind [lit "x=1"] ex_extended3 /\
  out_of (step ex_sv ex_bs2 (Some ex_extended3) []) = lit "e=invalid-proof".
Proof.
  split; [|vm_compute; reflexivity].
  exists (firstn 48 (skipn 2 ex_b2)), (lit "salt"), 4096%N, [].
  split; [exact ex_second|]. cbv zeta. split; [vm_compute; reflexivity|].
  split; [apply ex_nonce; [discriminate|reflexivity]|].
  constructor; [|constructor]. split; [apply ex_x1|split; discriminate].
Qed.

(** Not every client that follows RFC 5802 is accepted. *)
Theorem C92_server_refuted :
  ~ (forall e s a plus f z user cn data p sp m1 exts1 exts3 m2 s1 m3,
       s_mech s = XScramS a (Some (SsClientFirst plus)) -> crypto_ok e ->
       (f = CbSupportedNotUsed -> plus = false) -> server_can_bind e f data ->
       looks_up e user z (Some sp) -> stored_for e a p sp -> (1 <= st_iterations sp <= u32_max)%N ->
       validates_user e user z ->
       is_client_first m1 f z user cn exts1 -> step e s (Some m1) [] = (Ok Running, m2, s1) ->
       rfc_answer e a p (first_bare user cn ++ extensions_text exts1) m2 (gs2_text f z ++ data) exts3 m3 ->
       exists m4 signature, out_of (step e s1 (Some m3) []) = m4 /\ is_verifier m4 signature []).
Proof.
  intros H.
  destruct C36_example as (_ & Hb & _ & _ & _ & Hl & Hst & _ & Hv & Hc & _).
  destruct C92_extended_example as [Ha Ho].
  assert (Hi : (1 <= st_iterations ex_sp <= u32_max)%N) by (vm_compute; split; discriminate).
  destruct (H ex_sv (ex_s true) SHA1 true (CbUsed (lit "tls-exporter")) (Some (lit "admin")) (lit "user") ex_cn
    (lit "data") (lit "secret") ex_sp ex_b1 [] [lit "x=1"] ex_b2 ex_bs2 ex_extended3 eq_refl Hc
    (fun X => match X in _ = y return match y with CbSupportedNotUsed => true = false | _ => True end with eq_refl => I end)
    Hb Hl Hst Hi Hv ex_first ex_brun2) as (m4 & signature & E & V & _).
  { cbn [extensions_text map concat]. rewrite app_nil_r. exact Ha. }
  rewrite Ho in E. subst m4. discriminate V.
Qed.
Print Assumptions C92_server_refuted.
