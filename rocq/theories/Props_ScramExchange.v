(** Property theorems about SCRAM messages and complete SCRAM exchanges. *)
From Verif Require Import Bytes Utf8 Types World CallbackSpec Base64 Num Simple OAuth ScramParser
  Scram Gssapi Session Registry Spec_Wire Spec_Registry Spec_Simple Spec_OAuth Spec_ScramText Spec_Scram
  ExampleEnv ExampleScram Proof_ScramMain Proof_ScramPanic Proof_ScramProps Proof_ScramCor.

(** ** C34 *)

(** Client-first messages, for error-propagating callbacks and legal channel binding names.
    Missing for the full property: other channel binding names, for which it is false
    (C34_client_first_refuted), and callbacks that swallow errors. *)
Theorem C34_client_first_partial : forall e s a plus input script st m s' evs,
  s_mech s = XScramC a (Some (ScInitial plus)) -> polite e -> no_zero script ->
  step e s input script = (Ok st, m, s') -> new_events s s' evs -> text_answers evs ->
  exists f z zesc user uesc,
    answers PAuthId evs = [user] /\ escape user = Ok uesc /\
    @answered PAuthzId evs z /\ escaped z zesc /\ flag_for plus f /\ 
    client_first_parse m = Ok (mk_cf f zesc uesc (nonce_from e (s_rng s))) /\
    client_first_fields m f (lit "a=") zesc uesc (nonce_from e (s_rng s)) [].
Proof. exact client_first_parses. Qed.
Print Assumptions C34_client_first_partial.

Theorem C34_server_first : forall e s a plus m script st out s',
  s_mech s = XScramS a (Some (SsClientFirst plus)) -> no_zero script ->
  step e s (Some m) script = (Ok st, out, s') ->
  exists evs cf salt n, new_events s s' evs /\ client_first_parse m = Ok cf /\
    server_first_parse out =
      Ok (mk_sf (cf_nonce cf ++ nonce_from e (s_rng s)) (encode salt) (fmt_u32 n)) /\
    ((exists sp, answers PScramStoredPassword evs = [sp] /\ salt = st_salt sp /\ n = st_iterations sp) \/
     (server_pretends s' a /\ n = 16384%N /\ salt = dummy_salt e (24 + s_rng s))).
Proof. exact server_first_parses. Qed.
Print Assumptions C34_server_first.

Theorem C34_client_final : forall e s a b nonce user m script st out s',
  client_waits s a (encode b) nonce user -> no_zero script ->
  step e s (Some m) script = (Ok st, out, s') ->
  exists sf ck, server_first_parse m = Ok sf /\
    client_final_parse out = Ok (mk_cl (encode b) (sf_nonce sf) (encode (client_proof e a ck
      (rfc_auth_message (first_bare user nonce) m (final_bare (encode b) (sf_nonce sf)))))).
Proof. exact client_final_parses. Qed.
Print Assumptions C34_client_final.

Theorem C34_server_final : forall e s a cn sn header user z sp m script st out s',
  server_waits s a cn sn header user z sp \/ server_pretends s a -> crypto_ok e -> no_zero script ->
  step e s (Some m) script = (Ok st, out, s') ->
  (exists sig, length sig = hlen a /\ out = lit "v=" ++ encode sig /\
     server_final_parse out = Ok (SfVerifier (encode sig))) \/
  (exists x v, error_value x v /\ out = lit "e=" ++ v /\ server_final_parse out = Ok (SfError x)).
Proof. exact server_final_parses. Qed.
Print Assumptions C34_server_final.

(** A client-first message that was read and is written out again (as_ioslices) has the same text,
    apart from the two unchecked letters before the authorisation identity and the extensions at
    the end, and reads back as the same message. *)
Theorem C34_rewritten : forall m cf,
  client_first_parse m = Ok cf ->
  client_first_parse (concat (client_first_slices cf)) = Ok cf /\
  exists two t, length two = 2 /\ tail_of_attributes t /\
    m = flag_text (cf_cbflag cf) ++ lit "," ++
        match cf_authzid cf with Some z => two ++ z | None => [] end ++ lit "," ++
        first_bare (cf_username cf) (cf_nonce cf) ++ t /\
    concat (client_first_slices cf) =
        flag_text (cf_cbflag cf) ++ lit "," ++
        match cf_authzid cf with Some z => lit "a=" ++ z | None => [] end ++ lit "," ++
        first_bare (cf_username cf) (cf_nonce cf).
Proof. exact client_first_rewritten. Qed.
Print Assumptions C34_rewritten.

Example C34_rewritten_example :
  exists cf, client_first_parse (lit "p=tls-unique,x=bob,n=alice,r=rnd,e=1") = Ok cf /\
    concat (client_first_slices cf) = lit "p=tls-unique,a=bob,n=alice,r=rnd".
Proof. eexists. split; vm_compute; reflexivity. Qed.

(** An application naming a channel binding type with a comma gets a message the parser does
    not read back. *)
Definition ex_named : env :=
  ex_env (fun _ => ex_cb [mk_entry PAuthId (lit "user"); mk_entry POverrideCBType (lit "x,a=y")])
         no_vcb (fun _ => Some (lit "data")).
Definition ex_named1 : bytes := Eval vm_compute in out_of (step ex_named (ex_c Supported) None []).
Definition ex_nameds1 : session := Eval vm_compute in ses_of (step ex_named (ex_c Supported) None []).
Theorem C34_client_first_refuted :
  ~ forall e s a plus st m s' evs name,
      s_mech s = XScramC a (Some (ScInitial plus)) -> polite e ->
      step e s None [] = (Ok st, m, s') -> new_events s s' evs ->
      answers POverrideCBType evs = [name] ->
      exists z user nonce, client_first_parse m = Ok (mk_cf (CbUsed name) z user nonce).
Proof.
  intros H.
  assert (E1 : step ex_named (ex_c Supported) None [] = (Ok Running, ex_named1, ex_nameds1))
    by (vm_compute; reflexivity).
  assert (Hp : polite ex_named) by (intros tr c k; simpl; repeat split).
  assert (A : answers POverrideCBType (s_trace ex_nameds1) = [lit "x,a=y"]) by reflexivity.
  destruct (H _ (ex_c Supported) SHA1 Supported _ _ _ (s_trace ex_nameds1) _ eq_refl Hp E1 eq_refl A)
    as [z [user [nonce E]]].
  assert (P : match client_first_parse ex_named1 with
              | Ok (mk_cf f _ _ _) => match f with CbUsed n => bytes_eqb n (lit "x,a=y") | _ => false end
              | _ => false end = false) by (vm_compute; reflexivity).
  rewrite E in P. discriminate P.
Qed.
Print Assumptions C34_client_first_refuted.

Example C34_example :
  step ex_cl (ex_c Supported) None [] = (Ok Running, ex_b1, ex_bs1) /\ text_answers (s_trace ex_bs1) /\
  step ex_sv (ex_s true) (Some ex_b1) [] = (Ok Running, ex_b2, ex_bs2) /\
  step ex_cl ex_bs1 (Some ex_b2) [] = (Ok Running, ex_b3, ex_bs3) /\
  step ex_sv ex_bs2 (Some ex_b3) [] = (Ok (Finished true), ex_b4, ex_bs4) /\
  (exists b nonce user, client_waits ex_bs1 SHA1 (encode b) nonce user) /\
  (exists cn sn header user z, server_waits ex_bs2 SHA1 cn sn header user z ex_sp).
Proof.
  split; [exact ex_brun1|]. split; [ex_text|]. split; [exact ex_brun2|]. split; [exact ex_brun3|].
  split; [exact ex_brun4|]. split.
  - exists (lit "p=tls-exporter,a=admin,data"). do 2 eexists.
    unfold client_waits. vm_compute. reflexivity.
  - do 5 eexists. unfold server_waits. vm_compute. reflexivity.
Qed.

(** ** C35 *)

(** A panic needs a malformed SCRAM message, or cached keys of the wrong length from the
    application. Missing for the full property: those messages, for which it is false
    (C35_server_refuted, C35_client_refuted). *)
Theorem C35_panics_partial : forall e s input script out s',
  crypto_ok e -> live (s_mech s) -> step e s input script = (Panic, out, s') ->
  (exists m, input = Some m /\ stunted (s_mech s) m) \/
  (exists a st, s_mech s = XScramC a st /\ bad_cached_keys a s s').
Proof. exact only_stunted_panics. Qed.
Print Assumptions C35_panics_partial.

(** Sessions that report Running keep their state. *)
Theorem C35_live : forall e s input script out s',
  step e s input script = (Ok Running, out, s') -> live (s_mech s').
Proof. exact stays_live. Qed.
Print Assumptions C35_live.

(** A fresh SCRAM server panics on a short message. *)
Theorem C35_server_refuted :
  ~ forall e i s m out s', crypto_ok e ->
      server_start [DScram SHA1 false] (lit "SCRAM-SHA-1") = Ok (i, DScram SHA1 false) ->
      i = Builtin (s_mech s) -> step e s (Some m) [] <> (Panic, out, s').
Proof.
  intros H. refine (H ex_sv _ (ex_s false) (lit "n,,n") [] (ex_at (XScramS SHA1 None))
    (ex_crypto _ _ _) eq_refl eq_refl _). vm_compute. reflexivity.
Qed.
Print Assumptions C35_server_refuted.

(** So does a SCRAM client that has sent its first message. *)
Theorem C35_client_refuted :
  ~ forall e i s st m1 s1 m out s2, crypto_ok e ->
      client_start [DScram SHA1 false] true default_prefer [lit "SCRAM-SHA-1"]
        = Ok (i, DScram SHA1 false) ->
      i = Builtin (s_mech s) -> step e s None [] = (Ok st, m1, s1) ->
      step e s1 (Some m) [] <> (Panic, out, s2).
Proof.
  intros H. refine (H ex_cl _ (ex_c ServerNoSupport) _ _ _ (lit "r=x,s") []
    (mk_session (XScramC SHA1 None) (s_trace ex_ys1) (s_rng ex_ys1) None)
    (ex_crypto _ _ _) eq_refl eq_refl ex_yrun1 _). vm_compute. reflexivity.
Qed.
Print Assumptions C35_client_refuted.

Example C35_example :
  live (s_mech (ex_s false)) /\ stunted (s_mech (ex_s false)) (lit "n,,n") /\
  fst (fst (step ex_sv (ex_s false) (Some (lit "n,,n")) [])) = Panic.
Proof.
  split; [exact I|]. split; [|vm_compute; reflexivity].
  exists (lit "n"), [], (lit ",n"). unfold free. cbn.
  split; [reflexivity|]. split; [intuition discriminate|]. split; [intros []|].
  right. exists (lit "n"). split; [reflexivity|]. exists (lit "n"), []. unfold free. cbn.
  split; [auto|]. split; [intuition discriminate|]. split; [left; reflexivity|left; reflexivity].
Qed.

(** ** C36 *)

Theorem C36_complete : forall ec es sc ss a plus splus input f data user uesc z zesc p sp,
  s_mech sc = XScramC a (Some (ScInitial plus)) ->
  s_mech ss = XScramS a (Some (SsClientFirst splus)) ->
  crypto_ok es -> same_crypto ec es ->
  client_can_bind ec plus f data -> server_can_bind es f data ->
  legal_flag f -> (f = CbSupportedNotUsed -> splus = false) ->
  provides ec PAuthId user -> escape user = Ok uesc -> utf8_valid user = true ->
  answers_with ec PAuthzId z -> escaped z zesc -> (forall x, z = Some x -> utf8_valid x = true) ->
  looks_up es uesc zesc (Some sp) -> stored_for es a p sp ->
  (1 <= st_iterations sp <= u32_max)%N ->
  gives_keys ec a p (st_salt sp) (st_iterations sp) ->
  validates_user es uesc zesc ->
  exists m1 m2 m3 m4 sc1 sc2 sc3 ss1 ss2,
    step ec sc input [] = (Ok Running, m1, sc1) /\
    step es ss (Some m1) [] = (Ok Running, m2, ss1) /\
    step ec sc1 (Some m2) [] = (Ok Running, m3, sc2) /\
    step es ss1 (Some m3) [] = (Ok (Finished true), m4, ss2) /\
    step ec sc2 (Some m4) [] = (Ok (Finished false), [], sc3) /\
    exists evs c, new_events ss ss2 evs /\ validations evs = [c] /\ offers_scram c uesc zesc.
Proof. exact scram_complete. Qed.
Print Assumptions C36_complete.

Example C36_example :
  client_can_bind ex_cl Supported (CbUsed (lit "tls-exporter")) (lit "data") /\
  server_can_bind ex_sv (CbUsed (lit "tls-exporter")) (lit "data") /\
  legal_flag (CbUsed (lit "tls-exporter")) /\
  provides ex_cl PAuthId (lit "user") /\ answers_with ex_cl PAuthzId (Some (lit "admin")) /\
  looks_up ex_sv (lit "user") (Some (lit "admin")) (Some ex_sp) /\ stored_for ex_sv SHA1 (lit "secret") ex_sp /\
  gives_keys ex_cl SHA1 (lit "secret") (st_salt ex_sp) (st_iterations ex_sp) /\
  validates_user ex_sv (lit "user") (Some (lit "admin")) /\ crypto_ok ex_sv /\ same_crypto ex_cl ex_sv.
Proof.
  assert (W : forall q, q <> PAuthId -> q <> PAuthzId -> q <> PPassword -> withholds ex_cl q).
  { intros q H1 H2 H3 tr c. split; [simpl; repeat split|]. left.
    destruct q; try reflexivity; congruence. }
  split. { exists (lit "tls-exporter"). split; [reflexivity|]. right.
    split; [apply W; discriminate|]. left. split; [reflexivity|]. left. reflexivity. }
  split; [left; reflexivity|]. split; [split; [discriminate|reflexivity]|].
  split; [intros tr c; simpl; repeat split|]. split; [intros tr c; simpl; repeat split|].
  split; [intros tr c _; simpl; repeat split|].
  split; [split; vm_compute; reflexivity|].
  split. { right; right. split; [apply W; discriminate|]. split; [apply W; discriminate|].
    intros tr c; simpl; repeat split. }
  split; [intros tr c slot _; reflexivity|]. split; [apply ex_crypto|].
  repeat split; reflexivity.
Qed.

(** ** C37 *)

Theorem C37_server_sound : forall e s0 a plus m1 script1 st out1 s1 m2 script2 r out2 s2,
  s_mech s0 = XScramS a (Some (SsClientFirst plus)) -> crypto_ok e -> no_zero script1 ->
  step e s0 (Some m1) script1 = (Ok st, out1, s1) ->
  step e s1 (Some m2) script2 = (r, out2, s2) ->
  vouches s1 s2 out2 ->
  exists evs f two z user cn t data sp,
    new_events s0 s1 evs /\ validations evs = [] /\
    client_first_fields m1 f two z user cn t /\
    (f = CbSupportedNotUsed -> plus = false) /\ flag_data e evs f data /\
    answers PScramStoredPassword evs = [sp] /\ contexts_name evs user z /\
    proven e a f z user cn (nonce_from e (s_rng s0)) out1 m2 data sp /\
    forall evs2, new_events s1 s2 evs2 ->
      (evs2 = [] /\ exists x, r = Err (EIo x)) \/
      exists c, evs2 = [EvValidate c] /\ offers_scram c user z.
Proof. exact server_sound. Qed.
Print Assumptions C37_server_sound.

Example C37_example :
  step ex_sv (ex_s true) (Some ex_b1) [] = (Ok Running, ex_b2, ex_bs2) /\
  step ex_sv ex_bs2 (Some ex_b3) [] = (Ok (Finished true), ex_b4, ex_bs4) /\
  vouches ex_bs2 ex_bs4 ex_b4 /\ crypto_ok ex_sv.
Proof.
  split; [exact ex_brun2|]. split; [exact ex_brun4|].
  split; [right; eexists; reflexivity|apply ex_crypto].
Qed.

(** ** C38 *)

(** The client finishes exactly on the expected verifier; a different one is reported as
    failed mutual authentication. *)
Theorem C38_client_verifies : forall e s0 a plus input script1 st1 m1 s1 m2 script2 st2 m3 s2 m4 script3 r out s3,
  s_mech s0 = XScramC a (Some (ScInitial plus)) -> no_zero script1 -> no_zero script2 ->
  step e s0 input script1 = (Ok st1, m1, s1) ->
  step e s1 (Some m2) script2 = (Ok st2, m3, s2) ->
  step e s2 (Some m4) script3 = (r, out, s3) ->
  exists header user bare evs salt n ck sk,
    let am := rfc_auth_message (first_bare user (nonce_from e (s_rng s0))) m2 bare in
    m1 = header ++ first_bare user (nonce_from e (s_rng s0)) /\
    new_events s1 s2 evs /\ keys_from e a evs salt n ck sk /\
    m3 = bare ++ lit ",p=" ++ encode (client_proof e a ck am) /\
    (st1 = Running /\ st2 = Running) /\ out = [] /\
    (forall st, r = Ok st -> st = Finished false /\ m4 = lit "v=" ++ encode (e_hmac e a sk am)) /\
    (m4 = lit "v=" ++ encode (e_hmac e a sk am) -> r = Ok (Finished false)) /\
    (forall v, m4 = lit "v=" ++ encode v -> v <> e_hmac e a sk am ->
       r = Err EMutualAuthenticationFailed) /\
    (forall st, r = Ok st -> exists c taken, offers_salt c salt n /\
       Forall (fun ev => ev = EvTaken PScramCachedPassword) taken /\
       new_events s2 s3 (EvAction PScramCachedPassword (mk_cached ck sk) c :: taken)).
Proof. exact client_final_verified. Qed.
Print Assumptions C38_client_verifies.

(** Everything else makes it fail, with an error unless the message is too short to parse. *)
Theorem C38_rejects : forall e s0 a plus input script1 st1 m1 s1 m2 script2 st2 m3 s2,
  s_mech s0 = XScramC a (Some (ScInitial plus)) -> no_zero script1 -> no_zero script2 ->
  step e s0 input script1 = (Ok st1, m1, s1) ->
  step e s1 (Some m2) script2 = (Ok st2, m3, s2) ->
  exists hdr data user sn salt64 salt iters n evs ck sk,
    let cn := nonce_from e (s_rng s0) in
    let bare := final_bare (encode (hdr ++ data)) (cn ++ sn) in
    let am := rfc_auth_message (first_bare user cn) m2 bare in
    st1 = Running /\ st2 = Running /\
    m1 = hdr ++ first_bare user cn /\ continues m2 cn sn salt64 salt iters n /\
    new_events s1 s2 evs /\ validations evs = [] /\ keys_from e a evs salt n ck sk /\
    m3 = bare ++ lit ",p=" ++ encode (client_proof e a ck am) /\
    forall m4 script3 r out s3, step e s2 (Some m4) script3 = (r, out, s3) ->
      out = [] /\
      ((m4 = lit "v=" ++ encode (e_hmac e a sk am) /\ r = Ok (Finished false) /\
        exists c taken, offers_salt c salt n /\
          Forall (fun ev => ev = EvTaken PScramCachedPassword) taken /\
          new_events s2 s3 (EvAction PScramCachedPassword (mk_cached ck sk) c :: taken)) \/
       (m4 <> lit "v=" ++ encode (e_hmac e a sk am) /\ new_events s2 s3 [] /\
        (forall st, r <> Ok st) /\ (2 <= length m4 -> exists x, r = Err x) /\
        (forall v, m4 = lit "v=" ++ encode v -> r = Err EMutualAuthenticationFailed))).
Proof. exact client_verifies. Qed.
Print Assumptions C38_rejects.

Example C38_example :
  step ex_cl (ex_c Supported) None [] = (Ok Running, ex_b1, ex_bs1) /\
  step ex_cl ex_bs1 (Some ex_b2) [] = (Ok Running, ex_b3, ex_bs3) /\
  step ex_cl ex_bs3 (Some ex_b4) [] = (Ok (Finished false), ex_b5, ex_bs5) /\
  fst (fst (step ex_cl ex_bs3 (Some (lit "v=AAAA")) [])) = Err EMutualAuthenticationFailed /\
  exists x, fst (fst (step ex_cl ex_bs3 (Some (lit "e=unknown-user")) [])) = Err x.
Proof.
  split; [exact ex_brun1|]. split; [exact ex_brun3|]. split; [exact ex_brun5|].
  split; [vm_compute; reflexivity|]. eexists. vm_compute. reflexivity.
Qed.

(** ** C39 *)

(** The client signs, and checks the server's signature over, the messages exchanged. *)
Theorem C39_client_signs : forall e s0 a plus input script1 st1 m1 s1 m2 script2 st2 m3 s2
    m4 script3 out s3,
  s_mech s0 = XScramC a (Some (ScInitial plus)) -> no_zero script1 -> no_zero script2 ->
  step e s0 input script1 = (Ok st1, m1, s1) ->
  step e s1 (Some m2) script2 = (Ok st2, m3, s2) ->
  step e s2 (Some m4) script3 = (Ok (Finished false), out, s3) ->
  exists header bare1 bare2 ck sk user,
    bare1 = first_bare user (nonce_from e (s_rng s0)) /\ m1 = header ++ bare1 /\
    m3 = bare2 ++ lit ",p=" ++ encode (client_proof e a ck (rfc_auth_message bare1 m2 bare2)) /\
    m4 = lit "v=" ++ encode (e_hmac e a sk (rfc_auth_message bare1 m2 bare2)).
Proof.
  intros e s0 a plus input script1 st1 m1 s1 m2 script2 st2 m3 s2 m4 script3 out s3 Em Z1 Z2 H1 H2 H3.
  destruct (client_final_verified _ _ _ _ _ _ _ _ _ _ _ _ _ _ _ _ _ _ _ Em Z1 Z2 H1 H2 H3)
    as [header [user [bare [evs [salt [n [ck [sk H]]]]]]]].
  cbv zeta in H. destruct H as [Hm1 [_ [_ [Hm3 [_ [_ [Hf _]]]]]]].
  destruct (Hf _ eq_refl) as [_ Hm4]. exists header, (first_bare user (nonce_from e (s_rng s0))), bare, ck, sk, user.
  auto.
Qed.
Print Assumptions C39_client_signs.

(** The server, for messages without extensions. Missing for the full property: messages with
    extensions, for which it is false (C39_server_refuted). *)
Theorem C39_server_signs_partial : forall e s0 a plus m1 script1 st out1 s1 m2 script2 r out2 s2 flagt zpart user cn cb fn p64,
  s_mech s0 = XScramS a (Some (SsClientFirst plus)) -> crypto_ok e -> no_zero script1 ->
  step e s0 (Some m1) script1 = (Ok st, out1, s1) ->
  step e s1 (Some m2) script2 = (r, out2, s2) ->
  vouches s1 s2 out2 ->
  m1 = (flagt ++ lit "," ++ zpart ++ lit ",") ++ first_bare user cn ->
  free ","%char flagt -> free ","%char zpart -> free ","%char user -> free ","%char cn ->
  m2 = final_bare cb fn ++ lit ",p=" ++ p64 ->
  free ","%char cb -> free ","%char fn -> free ","%char p64 ->
  exists evs sp P, new_events s0 s1 evs /\ answers PScramStoredPassword evs = [sp] /\
    proof_value a p64 P /\
    e_hash e a (xor_text P (e_hmac e a (st_stored_key sp)
      (rfc_auth_message (first_bare user cn) out1 (final_bare cb fn)))) = st_stored_key sp.
Proof. exact server_signs. Qed.
Print Assumptions C39_server_signs_partial.

(** The server leaves an extension out of what it verifies: inserting one does not invalidate
    the proof. *)
Definition ex_ext_bare : bytes := Eval vm_compute in
  firstn (length ex_b3 - 31) ex_b3 ++ lit ",x=1".
Definition ex_ext_proof : bytes := Eval vm_compute in skipn (length ex_b3 - 28) ex_b3.
Definition ex_ext4 : bytes := Eval vm_compute in
  out_of (step ex_sv ex_bs2 (Some (ex_ext_bare ++ lit ",p=" ++ ex_ext_proof)) []).
Definition ex_exts4 : session := Eval vm_compute in
  ses_of (step ex_sv ex_bs2 (Some (ex_ext_bare ++ lit ",p=" ++ ex_ext_proof)) []).
Definition ex_ext_P : bytes := Eval vm_compute in
  match decode ex_ext_proof with Some x => x | None => [] end.
Theorem C39_server_refuted :
  ~ forall e s0 a plus m1 st out1 s1 m2 r out2 s2 evs sp flagt zpart user cn bare2 p64 P,
      s_mech s0 = XScramS a (Some (SsClientFirst plus)) -> crypto_ok e ->
      step e s0 (Some m1) [] = (Ok st, out1, s1) ->
      step e s1 (Some m2) [] = (r, out2, s2) -> vouches s1 s2 out2 ->
      m1 = (flagt ++ lit "," ++ zpart ++ lit ",") ++ first_bare user cn ->
      free ","%char flagt -> free ","%char zpart -> free ","%char user -> free ","%char cn ->
      m2 = bare2 ++ lit ",p=" ++ p64 -> free ","%char p64 -> proof_value a p64 P ->
      new_events s0 s1 evs -> answers PScramStoredPassword evs = [sp] ->
      e_hash e a (xor_text P (e_hmac e a (st_stored_key sp)
        (rfc_auth_message (first_bare user cn) out1 bare2))) = st_stored_key sp.
Proof.
  intros H.
  assert (E4 : step ex_sv ex_bs2 (Some (ex_ext_bare ++ lit ",p=" ++ ex_ext_proof)) []
               = (Ok (Finished true), ex_ext4, ex_exts4)) by (vm_compute; reflexivity).
  assert (F : forall x, forallb (fun c => negb (beq c ","%char)) x = true -> free ","%char x).
  { intros x Hx Hi. rewrite forallb_forall in Hx. specialize (Hx _ Hi). discriminate Hx. }
  assert (Hm1 : ex_b1 = (lit "p=tls-exporter" ++ lit "," ++ lit "a=admin" ++ lit ",") ++
                first_bare (lit "user") (skipn 32 ex_b1)) by (vm_compute; reflexivity).
  assert (Hp : proof_value SHA1 ex_ext_proof ex_ext_P).
  { exists ex_ext_P. split; [vm_compute; reflexivity|]. split; [|vm_compute; reflexivity].
    apply Nat.leb_le. vm_compute. reflexivity. }
  assert (Ha : answers PScramStoredPassword (s_trace ex_bs2) = [ex_sp]) by (vm_compute; reflexivity).
  assert (X : bytes_eqb (ex_hash SHA1 (xor_text ex_ext_P (ex_hmac SHA1 (st_stored_key ex_sp)
    (rfc_auth_message (first_bare (lit "user") (skipn 32 ex_b1)) ex_b2 ex_ext_bare))))
    (st_stored_key ex_sp) = false) by (vm_compute; reflexivity).
  pose proof (H ex_sv (ex_s true) SHA1 true _ _ _ _ _ _ _ _ (s_trace ex_bs2) ex_sp
    (lit "p=tls-exporter") (lit "a=admin") (lit "user") (skipn 32 ex_b1) ex_ext_bare ex_ext_proof ex_ext_P
    eq_refl (ex_crypto _ _ _) ex_brun2 E4 (or_intror (ex_intro _ _ eq_refl)) Hm1
    (F (lit "p=tls-exporter") eq_refl) (F (lit "a=admin") eq_refl) (F (lit "user") eq_refl)
    (F (skipn 32 ex_b1) eq_refl) eq_refl (F ex_ext_proof eq_refl) Hp eq_refl Ha) as E.
  change (ex_hash SHA1 (xor_text ex_ext_P (ex_hmac SHA1 (st_stored_key ex_sp)
    (rfc_auth_message (first_bare (lit "user") (skipn 32 ex_b1)) ex_b2 ex_ext_bare)))
    = st_stored_key ex_sp) in E.
  rewrite E in X. vm_compute in X. discriminate X.
Qed.
Print Assumptions C39_server_refuted.

(** ** C41 *)

Theorem C41_client_checks : forall e s a cb nonce user m script r out s',
  client_waits s a cb nonce user -> step e s (Some m) script = (r, out, s') ->
  out <> [] \/ (exists st, r = Ok st) \/ ~ new_events s s' [] ->
  exists sn salt64 iters, sn <> [] /\ m = server_first_text (nonce ++ sn) salt64 iters.
Proof. exact client_answers_extension. Qed.
Print Assumptions C41_client_checks.

Theorem C41_server_checks : forall e s0 a plus m1 script1 st out1 s1 m2 script2 r out2 s2,
  s_mech s0 = XScramS a (Some (SsClientFirst plus)) -> crypto_ok e -> no_zero script1 ->
  step e s0 (Some m1) script1 = (Ok st, out1, s1) ->
  step e s1 (Some m2) script2 = (r, out2, s2) ->
  vouches s1 s2 out2 ->
  exists nonce cb rest salt iters,
    m2 = final_bare cb nonce ++ rest /\ free ","%char cb /\ free ","%char nonce /\
    tail_of_attributes rest /\ out1 = server_first_text nonce salt iters.
Proof. exact server_exact_nonce. Qed.
Print Assumptions C41_server_checks.

Theorem C41_client_nonce : forall e s a plus input script st msg s',
  s_mech s = XScramC a (Some (ScInitial plus)) -> no_zero script ->
  step e s input script = (Ok st, msg, s') ->
  exists header user, msg = header ++ first_bare user (nonce_from e (s_rng s)) /\
    free ","%char user /\ s_rng s' = s_rng s + 24 /\
    legal_nonce (nonce_from e (s_rng s)) /\ length (nonce_from e (s_rng s)) = 24.
Proof. exact fresh_client_nonce. Qed.
Print Assumptions C41_client_nonce.

Theorem C41_server_nonce : forall e s a plus m script st out s',
  s_mech s = XScramS a (Some (SsClientFirst plus)) -> no_zero script ->
  step e s (Some m) script = (Ok st, out, s') ->
  exists cf salt iters, client_first_parse m = Ok cf /\
    out = server_first_text (cf_nonce cf ++ nonce_from e (s_rng s)) salt iters /\
    s_rng s + 24 <= s_rng s' /\
    legal_nonce (nonce_from e (s_rng s)) /\ length (nonce_from e (s_rng s)) = 24.
Proof. exact fresh_server_nonce. Qed.
Print Assumptions C41_server_nonce.

(** Nonces repeat only if the random numbers do. *)
Theorem C41_no_repeat : forall e n e' n',
  nonce_from e n = nonce_from e' n' ->
  forall k, k < 24 -> N.modulo (e_rng e (n + k)) 88 = N.modulo (e_rng e' (n' + k)) 88.
Proof. exact nonce_from_inj. Qed.
Print Assumptions C41_no_repeat.

Example C41_example :
  (exists cb nonce user, client_waits ex_bs1 SHA1 cb nonce user) /\
  step ex_cl ex_bs1 (Some ex_b2) [] = (Ok Running, ex_b3, ex_bs3) /\
  vouches ex_bs2 ex_bs4 ex_b4 /\ nonce_from ex_cl 0 <> nonce_from ex_cl 24.
Proof.
  split; [do 3 eexists; reflexivity|]. split; [exact ex_brun3|].
  split; [right; eexists; reflexivity|]. vm_compute. discriminate.
Qed.

(** ** C42 *)

Theorem C42_bound : forall e s0 a plus m1 script1 st out1 s1 m2 script2 r out2 s2 name two z user cn t,
  s_mech s0 = XScramS a (Some (SsClientFirst plus)) -> crypto_ok e -> no_zero script1 ->
  step e s0 (Some m1) script1 = (Ok st, out1, s1) ->
  step e s1 (Some m2) script2 = (r, out2, s2) ->
  vouches s1 s2 out2 ->
  client_first_fields m1 (CbUsed name) two z user cn t ->
  exists evs data cb nonce rest,
    new_events s0 s1 evs /\ cb_source e evs name data /\
    m2 = final_bare cb nonce ++ rest /\ free ","%char cb /\
    decode cb = Some (gs2_text (CbUsed name) z ++ data).
Proof. exact channel_bound. Qed.
Print Assumptions C42_bound.

Theorem C42_mismatch : forall e s0 a plus m1 script1 st out1 s1 m2 script2 r out2 s2 name two z user cn t data cb fn rest cdata,
  s_mech s0 = XScramS a (Some (SsClientFirst plus)) -> crypto_ok e -> no_zero script1 ->
  step e s0 (Some m1) script1 = (Ok st, out1, s1) ->
  step e s1 (Some m2) script2 = (r, out2, s2) ->
  client_first_fields m1 (CbUsed name) two z user cn t ->
  e_chan e name = Some data ->
  m2 = final_bare cb fn ++ rest -> free ","%char cb ->
  decode cb = Some (gs2_text (CbUsed name) z ++ cdata) -> cdata <> data ->
  ~ vouches s1 s2 out2.
Proof. exact binding_mismatch. Qed.
Print Assumptions C42_mismatch.

Example C42_example :
  vouches ex_bs2 ex_bs4 ex_b4 /\ e_chan ex_sv (lit "tls-exporter") = Some (lit "data") /\
  exists two z user cn, client_first_fields ex_b1 (CbUsed (lit "tls-exporter")) two z user cn [].
Proof.
  split; [right; eexists; reflexivity|]. split; [reflexivity|].
  exists (lit "a="), (Some (lit "admin")), (lit "user"), (skipn 32 ex_b1).
  split; [vm_compute; reflexivity|]. split; [reflexivity|].
  split; [split; [discriminate|reflexivity]|]. split.
  { vm_compute skipn. repeat constructor; try discriminate. }
  split; [left; reflexivity|]. unfold free. cbn.
  split; [intuition discriminate|]. split; [intuition discriminate|]. split; reflexivity.
Qed.

(** ** C43 *)

Theorem C43_pretends : forall e s a plus m f two z user cn t data,
  s_mech s = XScramS a (Some (SsClientFirst plus)) ->
  client_first_fields m f two z user cn t ->
  (f = CbSupportedNotUsed -> plus = false) -> server_can_bind e f data ->
  looks_up e user z None ->
  exists out s' salt, step e s (Some m) [] = (Ok Running, out, s') /\
    salt = dummy_salt e (24 + s_rng s) /\
    continues out cn (nonce_from e (s_rng s)) (encode salt) salt (lit "16384") 16384.
Proof. exact unknown_user_first. Qed.
Print Assumptions C43_pretends.

Theorem C43_refused : forall e s0 a plus m1 script1 st out1 s1 evs m2 script2 r out2 s2,
  s_mech s0 = XScramS a (Some (SsClientFirst plus)) ->
  step e s0 (Some m1) script1 = (Ok st, out1, s1) ->
  new_events s0 s1 evs -> answers PScramStoredPassword evs = [] ->
  step e s1 (Some m2) script2 = (r, out2, s2) ->
  validations evs = [] /\ new_events s1 s2 [] /\ s_val s2 = s_val s0 /\
  (exists rest, lit "e=unknown-user" = out2 ++ rest) /\
  (forall st2, r = Ok st2 -> no_zero script2 ->
     st2 = Finished true /\ out2 = lit "e=unknown-user") /\
  (forall cb fn exts p64, script2 = [] -> 
     m2 = final_bare cb fn ++ extensions_text exts ++ lit ",p=" ++ p64 ->
     free ","%char cb -> free ","%char fn -> free ","%char p64 -> Forall extension exts ->
     r = Ok (Finished true) /\ out2 = lit "e=unknown-user").
Proof. exact unknown_user_refused. Qed.
Print Assumptions C43_refused.

Definition ex_unk2 : bytes := Eval vm_compute in out_of (step ex_empty (ex_s false) (Some ex_y1) []).
Definition ex_unks2 : session := Eval vm_compute in ses_of (step ex_empty (ex_s false) (Some ex_y1) []).
Example C43_example :
  looks_up ex_empty (lit "user") (Some (lit "admin")) None /\
  step ex_empty (ex_s false) (Some ex_y1) [] = (Ok Running, ex_unk2, ex_unks2) /\
  answers PScramStoredPassword (s_trace ex_unks2) = [] /\
  fst (step ex_empty ex_unks2 (Some (lit "c=biws,r=x,p=AAAA")) [])
    = (Ok (Finished true), lit "e=unknown-user").
Proof.
  split; [intros tr c _; split; [exact I|left; reflexivity]|].
  split; [vm_compute; reflexivity|]. split; [reflexivity|]. vm_compute. reflexivity.
Qed.

(** ** C44 *)

(** The client writes nothing and asks nothing; it fails, by panicking only on short
    attributes. Missing for the full property: those, for which it is false
    (C44_errors_refuted). *)
Theorem C44_silent_partial : forall e s a cb nonce user m script r out s',
  crypto_ok e -> client_waits s a cb nonce user ->
  step e s (Some m) script = (r, out, s') ->
  (forall sn salt64 salt iters n, ~ continues m nonce sn salt64 salt iters n) ->
  out = [] /\ new_events s s' [] /\ s_val s' = s_val s /\
  ((exists x, r = Err x) \/ (r = Panic /\ short_attribute m)).
Proof. exact client_quiet. Qed.
Print Assumptions C44_silent_partial.

Theorem C44_errors_refuted :
  ~ forall e s a cb nonce user m r out s',
      crypto_ok e -> client_waits s a cb nonce user ->
      step e s (Some m) [] = (r, out, s') ->
      (forall sn salt64 salt iters n, ~ continues m nonce sn salt64 salt iters n) ->
      exists x, r = Err x.
Proof.
  intros H.
  assert (E : step ex_cl ex_ys1 (Some (lit "r=x,s")) []
    = (Panic, [], mk_session (XScramC SHA1 None) (s_trace ex_ys1) (s_rng ex_ys1) None))
    by (vm_compute; reflexivity).
  destruct (H ex_cl ex_ys1 _ _ _ _ _ _ _ _ (ex_crypto _ _ _) eq_refl E) as [x Ex].
  - intros sn salt64 salt iters n [Hm _]. apply (f_equal (@length ascii)) in Hm.
    unfold server_first_text in Hm. rewrite !app_length in Hm. discriminate Hm.
  - discriminate Ex.
Qed.
Print Assumptions C44_errors_refuted.

Example C44_example :
  (exists cb nonce user, client_waits ex_ys1 SHA1 cb nonce user) /\
  exists x, fst (step ex_cl ex_ys1 (Some (lit "r=wrong,s=AAAA,i=1")) []) = (Err x, []).
Proof. split; [do 3 eexists; reflexivity|]. eexists. vm_compute. reflexivity. Qed.

(** ** C45 *)

(** Password, salted password and cached keys are interchangeable. *)
Theorem C45_equivalent : forall e e' s s1 a cb nonce user m sn salt64 salt iters n p,
  client_waits s a cb nonce user -> client_waits s1 a cb nonce user ->
  continues m nonce sn salt64 salt iters n ->
  crypto_ok e -> same_crypto e e' -> gives_keys e a p salt n -> gives_keys e' a p salt n ->
  exists out s' s1' sig ck sk,
    step e s (Some m) [] = (Ok Running, out, s') /\
    step e' s1 (Some m) [] = (Ok Running, out, s1') /\
    client_expects s' a sig ck sk salt n /\ client_expects s1' a sig ck sk salt n /\
    ck = client_key_of e a (e_pbkdf2 e a p salt n) /\
    sk = server_key_of e a (e_pbkdf2 e a p salt n) /\
    forall m4 script, fst (fst (step e s' (Some m4) script)) = fst (fst (step e' s1' (Some m4) script)).
Proof. exact keys_equivalent. Qed.
Print Assumptions C45_equivalent.

(** The keys offered for caching are the ones that made the proof and checked the server. *)
Theorem C45_cached : forall e s0 a plus input script1 st1 m1 s1 m2 script2 st2 m3 s2
    m4 script3 st3 out s3,
  s_mech s0 = XScramC a (Some (ScInitial plus)) -> no_zero script1 -> no_zero script2 ->
  step e s0 input script1 = (Ok st1, m1, s1) ->
  step e s1 (Some m2) script2 = (Ok st2, m3, s2) ->
  step e s2 (Some m4) script3 = (Ok st3, out, s3) ->
  exists am bare ck sk c taken,
    m3 = bare ++ lit ",p=" ++ encode (client_proof e a ck am) /\
    m4 = lit "v=" ++ encode (e_hmac e a sk am) /\
    Forall (fun ev => ev = EvTaken PScramCachedPassword) taken /\
    new_events s2 s3 (EvAction PScramCachedPassword (mk_cached ck sk) c :: taken).
Proof.
  intros e s0 a plus input script1 st1 m1 s1 m2 script2 st2 m3 s2 m4 script3 st3 out s3 Em Z1 Z2 H1 H2 H3.
  destruct (client_final_verified _ _ _ _ _ _ _ _ _ _ _ _ _ _ _ _ _ _ _ Em Z1 Z2 H1 H2 H3)
    as [header [user [bare [evs [salt [n [ck [sk H]]]]]]]].
  cbv zeta in H. destruct H as [_ [_ [_ [Hm3 [_ [_ [Hf [_ [_ Hk]]]]]]]]].
  destruct (Hf _ eq_refl) as [_ Hm4]. destruct (Hk _ eq_refl) as [c [taken [_ [Ht Hn]]]].
  do 2 eexists. exists ck, sk, c, taken. eauto.
Qed.
Print Assumptions C45_cached.

Definition ex_cached : env :=
  ex_env (fun _ => ex_cb [mk_entry PScramCachedPassword
    (mk_cached (ex_hmac SHA1 ex_salted (lit "Client Key")) (ex_hmac SHA1 ex_salted (lit "Server Key")))])
    no_vcb no_chan.
Example C45_example :
  gives_keys ex_cached SHA1 (lit "secret") (lit "salt") 4096 /\
  (exists sn iters, continues ex_b2 (skipn 32 ex_b1) sn (encode (lit "salt")) (lit "salt") iters 4096) /\
  fst (step ex_cached ex_bs1 (Some ex_b2) []) = (Ok Running, ex_b3) /\
  step ex_cl ex_bs3 (Some ex_b4) [] = (Ok (Finished false), ex_b5, ex_bs5).
Proof.
  split; [left; intros tr c; simpl; repeat split|]. split.
  - exists (skipn 32 ex_b1), (lit "4096"). split; [vm_compute; reflexivity|].
    split; [discriminate|]. split; [vm_compute; reflexivity|]. split; [vm_compute; reflexivity|].
    split; [discriminate|]. unfold free. vm_compute.
    split; [intuition discriminate|]. split; [intuition discriminate|intuition discriminate].
  - split; [vm_compute; reflexivity|exact ex_brun5].
Qed.
