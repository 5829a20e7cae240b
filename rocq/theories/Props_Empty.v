(** C126: logins with an empty name or an empty secret. *)
From Verif Require Import Bytes Utf8 Base64 Num Types World CallbackSpec Simple OAuth ScramParser Scram Gssapi Session
  Registry Spec_Simple Spec_OAuth Spec_ScramText Spec_Scram Spec_History Spec_Empty ExampleEnv ExampleScram
  Proof_Simple Proof_OAuth Proof_Scram Proof_ScramRun Proof_ScramMain Proof_Empty.

(** ** Servers *)

(** C126 for servers is false: LOGIN shows its application an empty name and an empty password. *)
Theorem C126_server_refuted : ~ (forall e s input script r out s' evs c,
  step e s input script = (r, out, s') -> new_events s s' evs -> shown evs c ->
  ~ empty_name c /\ ~ empty_password c).
Proof.
  intros H.
  destruct (H ex_empty (ex_at (XLoginS (LsPass []))) (Some []) [] _ _ _ [EvValidate (login_provider [] [])]
              (login_provider [] []) eq_refl eq_refl (or_introl (or_introl eq_refl))) as [K _].
  apply K. reflexivity.
Qed.
Print Assumptions C126_server_refuted.

(** C126: an empty password is shown by LOGIN alone, an empty name by LOGIN, XOAUTH2 and SCRAM alone.
    Missing: these. *)
Theorem C126_server_partial : forall e s input script r out s' evs c,
  step e s input script = (r, out, s') -> new_events s s' evs -> shown evs c ->
  (empty_name c -> (exists l, s_mech s = XLoginS l) \/ (exists l, s_mech s = XXOAuth2S l) \/
                   (exists a l, s_mech s = XScramS a l)) /\
  (empty_password c -> exists l, s_mech s = XLoginS l) /\
  (empty_token c -> (exists l, s_mech s = XXOAuth2S l) \/ (exists l, s_mech s = XOAuthBearerS l)).
Proof. exact empty_shown. Qed.
Print Assumptions C126_server_partial.

(** C126: an XOAUTH2 server asks its application about the empty name and the empty token. *)
Theorem C126_server_xoauth2 : forall e s script r out s',
  s_mech s = XXOAuth2S OsInitial -> step e s (Some (xoauth2_message [] [])) script = (r, out, s') ->
  exists c rest, new_events s s' (EvRequest PXOAuth2Validate c :: rest) /\ empty_name c /\ empty_token c.
Proof.
  intros e s script r out s' Hm H.
  destruct (xoauth2_server_sees e s [] [] script r out s' Hm (fun K => K) eq_refl eq_refl H)
    as (evs & N & c & rest & -> & [A [T _]] & _).
  exists c, rest. auto.
Qed.
Print Assumptions C126_server_xoauth2.

(** C126: a SCRAM server asks for the stored password of the empty name, which RFC 5802 does not allow. *)
Theorem C126_server_scram : forall e s a plus m f two z cn t script st out s',
  s_mech s = XScramS a (Some (SsClientFirst plus)) -> client_first_fields m f two z [] cn t ->
  step e s (Some m) script = (Ok st, out, s') ->
  exists evs c, new_events s s' evs /\ In (EvRequest PScramStoredPassword c) evs /\ empty_name c.
Proof. exact scram_empty_shown. Qed.
Print Assumptions C126_server_scram.

(** ** Clients *)

(** C126 for clients is false: a LOGIN client sends an empty name. *)
Definition ex_blank : env :=
  ex_env (fun _ => ex_cb [mk_entry PAuthId []; mk_entry PPassword []; mk_entry POAuthBearerToken []]) no_vcb no_chan.
Lemma ex_blank_provides : provides ex_blank PAuthId [] /\ provides ex_blank PPassword [] /\
  provides ex_blank POAuthBearerToken [].
Proof. repeat (split; [intros tr c; simpl; repeat split|]). intros tr c; simpl; repeat split. Qed.

Theorem C126_client_refuted : ~ (forall e s input script r out s',
  provides e PAuthId [] -> asks_name (s_mech s) ->
  step e s input script = (r, out, s') -> exists x, r = Err x).
Proof.
  intros H. destruct (H ex_blank (ex_at (XLoginC LcAuthid)) None [] _ _ _ (proj1 ex_blank_provides)
    I eq_refl) as [x K]. discriminate K.
Qed.
Print Assumptions C126_client_refuted.

(** C126: PLAIN clients send neither an empty name nor an empty password... *)
Theorem C126_client_plain_partial : forall e s input script r out s',
  s_mech s = XPlainC -> provides e PAuthId [] \/ provides e PPassword [] ->
  step e s input script = (r, out, s') -> exists x, r = Err x.
Proof. exact plain_empty_refused. Qed.
Print Assumptions C126_client_plain_partial.

(** ...and SCRAM clients no empty name: they fail before anything is sent. Missing: all else. *)
Theorem C126_client_scram_partial : forall e s a plus input script r out s',
  s_mech s = XScramC a (Some (ScInitial plus)) -> provides e PAuthId [] ->
  step e s input script = (r, out, s') -> out = [] /\ exists x, r = Err x.
Proof. exact scram_empty_name. Qed.
Print Assumptions C126_client_scram_partial.

(** C126: XOAUTH2 clients send whatever they are given, also nothing. *)
Theorem C126_client_xoauth2 : forall e s input user token,
  s_mech s = XXOAuth2C OcInitial -> provides e PAuthId user -> provides e POAuthBearerToken token ->
  exists s', step e s input [] = (Ok Running, xoauth2_message user token, s').
Proof. exact xoauth2_sends. Qed.
Print Assumptions C126_client_xoauth2.

(** C126: over LOGIN, a client without a name and a password and a server go through with it: the
    server's application is shown both empty. *)
Theorem C126_login : forall ec es sc ss,
  s_mech sc = XLoginC LcAuthid -> s_mech ss = XLoginS LsNew ->
  provides ec PAuthId [] -> provides ec PPassword [] -> forall i0 i1 i2,
  exists s1 s2 c1 c2,
    step es ss i0 [] = (Ok Running, lit "User Name" ++ [nul], s1) /\
    step ec sc i1 [] = (Ok Running, [], c1) /\
    step es s1 (Some []) [] = (Ok Running, lit "Password" ++ [nul], s2) /\
    step ec c1 i2 [] = (Ok (Finished true), [], c2) /\
    forall r out s3, step es s2 (Some []) [] = (r, out, s3) ->
      exists c, new_events ss s3 [EvValidate c] /\ empty_name c /\ empty_password c /\ validated r.
Proof.
  intros ec es sc ss Hc Hs Ha Hp i0 i1 i2.
  destruct (login_exchange ec es sc ss [] [] Hc Hs Ha Hp eq_refl i0 i1 i2)
    as (s1 & s2 & c1 & c2 & E1 & E2 & E3 & E4 & E5 & _).
  exists s1, s2, c1, c2. split; [exact E1|]. split; [exact E2|]. split; [apply E3; constructor|].
  split; [exact E4|]. intros r out s3 H. destruct (E5 s2 r out s3 (idle_stop _ _) H) as (c & N & [A [P _]] & _ & V & _).
  exists c. auto.
Qed.
Print Assumptions C126_login.

(** C126: SCRAM clients prove an empty password like any other. *)
Theorem C126_scram : forall ec es sc ss a plus splus input f data user uesc z zesc sp,
  s_mech sc = XScramC a (Some (ScInitial plus)) ->
  s_mech ss = XScramS a (Some (SsClientFirst splus)) ->
  crypto_ok es -> same_crypto ec es ->
  client_can_bind ec plus f data -> server_can_bind es f data ->
  legal_flag f -> (f = CbSupportedNotUsed -> splus = false) ->
  provides ec PAuthId user -> escape user = Ok uesc -> utf8_valid user = true ->
  answers_with ec PAuthzId z -> escaped z zesc -> (forall x, z = Some x -> utf8_valid x = true) ->
  looks_up es uesc zesc (Some sp) -> stored_for es a [] sp ->
  (1 <= st_iterations sp <= u32_max)%N ->
  withholds ec PScramCachedPassword -> withholds ec PSaltedPassword -> provides ec PPassword [] ->
  validates_user es uesc zesc ->
  exists m1 m2 m3 m4 sc1 sc2 sc3 ss1 ss2,
    step ec sc input [] = (Ok Running, m1, sc1) /\
    step es ss (Some m1) [] = (Ok Running, m2, ss1) /\
    step ec sc1 (Some m2) [] = (Ok Running, m3, sc2) /\
    step es ss1 (Some m3) [] = (Ok (Finished true), m4, ss2) /\
    step ec sc2 (Some m4) [] = (Ok (Finished false), [], sc3) /\
    exists evs c, new_events ss ss2 evs /\ validations evs = [c] /\ offers_scram c uesc zesc.
Proof.
  intros. eapply scram_complete; eauto. right. right. auto.
Qed.
Print Assumptions C126_scram.

(** ** Examples *)

(** An application that takes every token. *)
Definition ex_oa_blank : env := ex_env (fun _ => ex_cb [mk_entry PXOAuth2Validate None]) no_vcb no_chan.

Example C126_server_example :
  let m := lit "n,,n=,r=abc" in
  client_first_fields m CbNotSupported (lit "a=") None [] (lit "abc") [] /\
  (exists out s', step ex_sv (ex_s false) (Some m) [] = (Ok Running, out, s')) /\
  res_of (step ex_oa_blank (ex_at (XXOAuth2S OsInitial)) (Some (xoauth2_message [] [])) []) = Ok (Finished false).
Proof.
  cbv zeta. split; [|split; [do 2 eexists; vm_compute; reflexivity|vm_compute; reflexivity]].
  destruct (parse_fields (lit "n,,n=,r=abc") (mk_cf CbNotSupported None [] (lit "abc")) eq_refl)
    as (two & t & F). cbn [cf_cbflag cf_authzid cf_username cf_nonce] in F.
  assert (t = []) as ->.
  { destruct F as [E _]. cbn in E. injection E as E. symmetry. exact E. }
  destruct F as (A & _ & B). split; [exact A|]. split; [reflexivity|exact B].
Qed.

(** A PLAIN login is shown with its name and password. *)
Example C126_server_plain_example :
  s_trace (ses_of (step ex_empty (ex_at XPlainS) (Some (plain_message [] (lit "u") (lit "p"))) []))
  = [EvValidate (plain_provider (lit "u") [] (lit "p"))].
Proof. vm_compute. reflexivity. Qed.

Example C126_client_example :
  res_of (step ex_blank (ex_at XPlainC) None []) = Err (EMech (MPlain PlEmpty)) /\
  res_of (step ex_blank (ex_c ClientNoSupport) None []) = Err (EMech (MSaslName SnEmpty)) /\
  out_of (step ex_blank (ex_at (XXOAuth2C OcInitial)) None []) = xoauth2_message [] [].
Proof. vm_compute. auto. Qed.

(** A user with an empty password, at a server that has stored it. *)
Definition ex_nopass : env := ex_env (fun _ => ex_cb [mk_entry PAuthId (lit "user"); mk_entry PPassword []]) no_vcb no_chan.
Definition ex_nopass_entry : stored :=
  let salted := ex_pbkdf2 SHA1 [] (lit "salt") 4096 in
  mk_stored 4096 (lit "salt") (ex_hash SHA1 (ex_hmac SHA1 salted (lit "Client Key"))) (ex_hmac SHA1 salted (lit "Server Key")).
Definition ex_nopass_server : env :=
  ex_env (fun _ => ex_cb [mk_entry PScramStoredPassword ex_nopass_entry]) no_vcb no_chan.
Example C126_scram_example :
  crypto_ok ex_nopass_server /\ same_crypto ex_nopass ex_nopass_server /\
  client_can_bind ex_nopass ClientNoSupport CbNotSupported [] /\ server_can_bind ex_nopass_server CbNotSupported [] /\
  provides ex_nopass PAuthId (lit "user") /\ answers_with ex_nopass PAuthzId None /\
  looks_up ex_nopass_server (lit "user") None (Some ex_nopass_entry) /\
  stored_for ex_nopass_server SHA1 [] ex_nopass_entry /\
  withholds ex_nopass PScramCachedPassword /\ withholds ex_nopass PSaltedPassword /\
  provides ex_nopass PPassword [] /\ validates_user ex_nopass_server (lit "user") None.
Proof.
  assert (W : forall q, q <> PAuthId -> q <> PPassword -> withholds ex_nopass q).
  { intros q H1 H2 tr c. split; [simpl; repeat split|]. left. destruct q; try reflexivity; congruence. }
  split; [apply ex_crypto|]. split; [repeat split; reflexivity|].
  split; [repeat split|]. split; [reflexivity|].
  split; [intros tr c; simpl; repeat split|]. split; [apply W; discriminate|].
  split; [intros tr c _; simpl; repeat split|]. split; [split; vm_compute; reflexivity|].
  split; [apply W; discriminate|]. split; [apply W; discriminate|].
  split; [intros tr c; simpl; repeat split|]. intros tr c slot _; reflexivity.
Qed.
