(** C77, C78. *)
From Coq Require Import List NArith.
From Verif Require Import Bytes Utf8 Base64 Num Types World CallbackSpec Simple OAuth ScramParser
  Scram Session Spec_Simple Spec_ScramText Spec_Scram Spec_Agree ExampleEnv ExampleScram
  Proof_Agree.
Import ListNotations.

(** C77: the client accepts what a server session wrote. Whatever happened to the messages in
    between, both hold the same view, or the keyed hash of these two conversations collides. *)
Theorem C77_client : forall ec es sc ss a plus splus input script1 st1 m1 sc1 evs1 m2' script2 st2 m3 sc2 m1' sscript1 sst m2 ss1 m3' sscript2 r m4 ss2 script3 st out sc3,
  s_mech sc = XScramC a (Some (ScInitial plus)) -> polite ec -> no_zero script1 -> no_zero script2 ->
  step ec sc input script1 = (Ok st1, m1, sc1) -> new_events sc sc1 evs1 -> text_answers evs1 ->
  step ec sc1 (Some m2') script2 = (Ok st2, m3, sc2) ->
  s_mech ss = XScramS a (Some (SsClientFirst splus)) -> no_zero sscript1 ->
  crypto_ok es -> same_crypto ec es ->
  step es ss (Some m1') sscript1 = (Ok sst, m2, ss1) ->
  step es ss1 (Some m3') sscript2 = (r, m4, ss2) ->
  step ec sc2 (Some m4) script3 = (Ok st, out, sc3) ->
  exists v v' two t p64 exts ck sk evs2 salt n evs sp,
    client_saw ec a v ck m1 m2' m3 /\ server_saw v' two t p64 exts m1' m2 m3' /\
    v_client_nonce v = nonce_from ec (s_rng sc) /\
    v_server_nonce v' = nonce_from es (s_rng ss) /\
    new_events sc1 sc2 evs2 /\ keys_from ec a evs2 salt n ck sk /\
    new_events ss ss1 evs /\ answers PScramStoredPassword evs = [sp] /\
    st = Finished false /\
    (v = v' \/
     hmac_collision es a sk (view_message v) (st_server_key sp) (view_message v')).
Proof. exact client_agrees. Qed.
Print Assumptions C77_client.

(** C77: the server accepts the proof a client session made. *)
Theorem C77_server : forall ec es sc ss a plus splus input script1 st1 m1 sc1 evs1 m2' script2 st2 m3 sc2 m1' sscript1 sst m2 ss1 m3' sscript2 r m4 ss2 p64,
  s_mech sc = XScramC a (Some (ScInitial plus)) -> polite ec -> no_zero script1 -> no_zero script2 ->
  step ec sc input script1 = (Ok st1, m1, sc1) -> new_events sc sc1 evs1 -> text_answers evs1 ->
  step ec sc1 (Some m2') script2 = (Ok st2, m3, sc2) ->
  s_mech ss = XScramS a (Some (SsClientFirst splus)) -> no_zero sscript1 ->
  crypto_ok es -> same_crypto ec es ->
  step es ss (Some m1') sscript1 = (Ok sst, m2, ss1) ->
  step es ss1 (Some m3') sscript2 = (r, m4, ss2) ->
  ends_in_proof m3 p64 -> ends_in_proof m3' p64 -> vouches ss1 ss2 m4 ->
  exists v v' two t exts ck sk evs2 salt n evs sp,
    client_saw ec a v ck m1 m2' m3 /\ server_saw v' two t p64 exts m1' m2 m3' /\
    v_client_nonce v = nonce_from ec (s_rng sc) /\
    v_server_nonce v' = nonce_from es (s_rng ss) /\
    new_events sc1 sc2 evs2 /\ keys_from ec a evs2 salt n ck sk /\
    new_events ss ss1 evs /\ answers PScramStoredPassword evs = [sp] /\
    (st_stored_key sp = e_hash es a ck ->
     v = v' \/
     hmac_collision es a (st_stored_key sp) (view_message v) (st_stored_key sp) (view_message v') \/
     hash_collision es a (key_seen es a ck v v') ck).
Proof. exact server_agrees. Qed.
Print Assumptions C77_server.

(** C77: equal views make equal messages but for what the server ignores. *)
Theorem C77_messages : forall e a v ck m1 m2' m3 two t p64 exts m1' m2 m3',
  client_saw e a v ck m1 m2' m3 -> server_saw v two t p64 exts m1' m2 m3' ->
  m2' = m2 /\
  (t = [] -> (v_authzid v <> None -> two = lit "a=") -> m1' = m1) /\
  (exts = [] -> ends_in_proof m3 p64 -> m3' = m3).
Proof. exact same_messages. Qed.
Print Assumptions C77_messages.

(** An attacker adds attributes to both of the client's messages: the server does not see them.
    One who changes the name to act as is found out. *)
Definition ex_add (m : bytes) : bytes := m ++ lit ",x=1".
Definition ex_mid (m : bytes) : bytes :=
  match split_at_byte "p"%char (skipn 30 m) with
  | Some (x, y) => firstn 30 m ++ x ++ lit "x=2," ++ y
  | None => m
  end.
Definition ex_swap (m : bytes) : bytes :=
  map (fun b => if Ascii.eqb b "d"%char then "D"%char else b) (firstn 23 m) ++ skipn 23 m.
Definition ex_carried (f g : bytes -> bytes) : bytes * res serr state :=
  let s1 := step ex_sv (ex_s true) (Some (f ex_b1)) [] in
  let c2 := step ex_cl ex_bs1 (Some (out_of s1)) [] in
  let s2 := step ex_sv (ses_of s1) (Some (g (out_of c2))) [] in
  let c3 := step ex_cl (ses_of c2) (Some (out_of s2)) [] in
  (firstn 27 (out_of s2), res_of c3).
Example C77_example :
  s_mech (ex_c Supported) = XScramC SHA1 (Some (ScInitial Supported)) /\ polite ex_cl /\
  crypto_ok ex_sv /\ same_crypto ex_cl ex_sv /\ text_answers (s_trace ex_bs1) /\
  ex_add ex_b1 <> ex_b1 /\ ex_mid ex_b3 <> ex_b3 /\
  ex_carried ex_add ex_mid = (firstn 27 ex_b4, Ok (Finished false)) /\
  vouches ex_bs2 ex_bs4 ex_b4 /\
  ex_carried ex_swap (fun m => m) =
    (lit "e=channel-bindings-dont-mat", Err (EMech (MScramServerError SeChannelBindingsDontMatch))).
Proof.
  split; [reflexivity|]. split; [apply ex_cl_polite|]. split; [apply ex_crypto|].
  split; [repeat split|].
  split.
  { split; [|split]; intros x H; vm_compute in H;
      repeat (destruct H as [<-|H]; [vm_compute; first [reflexivity|split; [discriminate|reflexivity]]|]);
      contradiction. }
  split; [vm_compute; discriminate|]. split; [vm_compute; discriminate|].
  split; [vm_compute; reflexivity|]. split; [right; eexists; reflexivity|].
  vm_compute. reflexivity.
Qed.

(** C78: replayed as it is, a final message is accepted under one server nonce only. *)
Theorem C78_message : forall e e' s s' a a' plus plus' m1 m1' sc1 sc1' st st' out out' s1 s1' m sc2 sc2' r r' o o' s2 s2',
  s_mech s = XScramS a (Some (SsClientFirst plus)) -> crypto_ok e -> no_zero sc1 ->
  s_mech s' = XScramS a' (Some (SsClientFirst plus')) -> crypto_ok e' -> no_zero sc1' ->
  step e s (Some m1) sc1 = (Ok st, out, s1) -> step e' s' (Some m1') sc1' = (Ok st', out', s1') ->
  step e s1 (Some m) sc2 = (r, o, s2) -> step e' s1' (Some m) sc2' = (r', o', s2') ->
  vouches s1 s2 o -> vouches s1' s2' o' ->
  nonce_from e (s_rng s) = nonce_from e' (s_rng s').
Proof. exact final_once. Qed.
Print Assumptions C78_message.

(** C78: and so is the proof in it, whatever is written around it. *)
Theorem C78_proof : forall ec es es' sc ss ss' a plus splus splus' input script1 st1 m1 sc1 evs1 m2 script2 st2 m3 sc2 m1a sca sta m2a ssa m3a scb ra m4a ssb m1b scc stb m2b ssc m3b scd rb m4b ssd p64,
  s_mech sc = XScramC a (Some (ScInitial plus)) -> polite ec -> no_zero script1 -> no_zero script2 ->
  step ec sc input script1 = (Ok st1, m1, sc1) -> new_events sc sc1 evs1 -> text_answers evs1 ->
  step ec sc1 (Some m2) script2 = (Ok st2, m3, sc2) -> ends_in_proof m3 p64 ->
  crypto_ok es -> same_crypto ec es -> crypto_ok es' -> same_crypto ec es' ->
  s_mech ss = XScramS a (Some (SsClientFirst splus)) -> no_zero sca ->
  step es ss (Some m1a) sca = (Ok sta, m2a, ssa) ->
  step es ssa (Some m3a) scb = (ra, m4a, ssb) -> ends_in_proof m3a p64 -> vouches ssa ssb m4a ->
  s_mech ss' = XScramS a (Some (SsClientFirst splus')) -> no_zero scc ->
  step es' ss' (Some m1b) scc = (Ok stb, m2b, ssc) ->
  step es' ssc (Some m3b) scd = (rb, m4b, ssd) -> ends_in_proof m3b p64 -> vouches ssc ssd m4b ->
  exists v va vb ck sk evs2 salt n evsa evsb spa spb,
    client_saw ec a v ck m1 m2 m3 /\
    new_events sc1 sc2 evs2 /\ keys_from ec a evs2 salt n ck sk /\
    new_events ss ssa evsa /\ answers PScramStoredPassword evsa = [spa] /\
    new_events ss' ssc evsb /\ answers PScramStoredPassword evsb = [spb] /\
    m2a = view_challenge va /\ m2b = view_challenge vb /\
    (st_stored_key spa = e_hash es a ck -> st_stored_key spb = e_hash es a ck ->
     (nonce_from es (s_rng ss) = nonce_from es' (s_rng ss') /\ m2a = m2b) \/
     exists y, (y = va \/ y = vb) /\
       (hmac_collision es a (e_hash es a ck) (view_message v) (e_hash es a ck) (view_message y) \/
        hash_collision es a (key_seen es a ck v y) ck)).
Proof. exact proof_once. Qed.
Print Assumptions C78_proof.

(** C78: so a recorded conversation cannot be replayed to a session with a new nonce. *)
Theorem C78_replay : forall e s s' a plus plus' m1 sc1 sc1' st st' out out' s1 s1' m3 sc2 sc2' r r' o o' s2 s2',
  s_mech s = XScramS a (Some (SsClientFirst plus)) -> no_zero sc1 ->
  s_mech s' = XScramS a (Some (SsClientFirst plus')) -> no_zero sc1' -> crypto_ok e ->
  step e s (Some m1) sc1 = (Ok st, out, s1) -> step e s1 (Some m3) sc2 = (r, o, s2) ->
  vouches s1 s2 o ->
  step e s' (Some m1) sc1' = (Ok st', out', s1') -> step e s1' (Some m3) sc2' = (r', o', s2') ->
  nonce_from e (s_rng s) <> nonce_from e (s_rng s') ->
  ~ vouches s1' s2' o'.
Proof. exact replay_refused. Qed.
Print Assumptions C78_replay.

(** The recorded messages, to a server that has drawn other random numbers. *)
Definition ex_later : session := mk_session (XScramS SHA1 (Some (SsClientFirst true))) [] 24 None.
Example C78_example :
  vouches ex_bs2 ex_bs4 ex_b4 /\
  nonce_from ex_sv (s_rng ex_later) <> nonce_from ex_sv (s_rng (ex_s true)) /\
  let s1 := step ex_sv ex_later (Some ex_b1) [] in
  let s2 := step ex_sv (ses_of s1) (Some ex_b3) [] in
  res_of s1 = Ok Running /\ res_of s2 = Ok (Finished true) /\ out_of s2 = lit "e=invalid-proof" /\
  validations (s_trace (ses_of s2)) = [].
Proof.
  split; [right; eexists; reflexivity|]. split; [vm_compute; discriminate|].
  vm_compute. repeat split.
Qed.
