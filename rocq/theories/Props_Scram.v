(** Property theorems about SCRAM exchanges. *)
From Verif Require Import Bytes Utf8 Types World CallbackSpec Base64 Num Simple OAuth ScramParser
  Scram Gssapi Session Registry Spec_Registry Spec_Simple Spec_OAuth Spec_ScramText Spec_Scram
  ExampleEnv ExampleScram Proof_ScramMain Proof_Credentials Proof_ScramProps Proof_ScramCor.

(** ** C07 *)

(** With an authorization identity in the credentials, whatever mechanism is selected, the
    first message carries it. *)
Theorem C07_authzid_sent : forall e z a p cb prefer offered i m s input script st msg s',
  (forall tr c k, e_cb e tr (e_sd e) c k = credentials_cb (Some z) a p) ->
  client_start (credentials_registry true) cb prefer offered = Ok (i, m) ->
  i = Builtin (s_mech s) -> no_zero script ->
  step e s input script = (Ok st, msg, s') ->
  carries i z a p msg.
Proof. exact authzid_sent_always. Qed.
Print Assumptions C07_authzid_sent.

Theorem C07_login_without_authzid : forall b cb prefer offered i,
  client_start (credentials_registry b) cb prefer offered = Ok (i, DLogin) -> b = false.
Proof. exact login_without_authzid. Qed.
Print Assumptions C07_login_without_authzid.

Definition ex_cred : env :=
  ex_env (fun _ => credentials_cb (Some (lit "ad,min")) (lit "user") (lit "secret")) no_vcb no_chan.
Example C07_example :
  (exists i, client_start (credentials_registry true) true default_prefer
     [lit "LOGIN"; lit "SCRAM-SHA-1"] = Ok (i, DScram SHA1 false) /\
     i = Builtin (s_mech (ex_c ServerNoSupport))) /\
  (exists rest, out_of (step ex_cred (ex_c ServerNoSupport) None []) =
     lit "y,a=ad=2Cmin,n=user,r=" ++ rest) /\
  client_start (credentials_registry true) true default_prefer [lit "LOGIN"] = Err NoSharedMechanism /\
  client_start (credentials_registry false) true default_prefer [lit "LOGIN"]
    = Ok (Builtin (XLoginC LcAuthid), DLogin).
Proof.
  split; [eexists; split; reflexivity|]. split; [eexists; vm_compute; reflexivity|].
  split; reflexivity.
Qed.

(** ** C08 *)

(** The bare mechanism: 'y' only if channel binding is enabled and the server did not offer
    -PLUS, otherwise 'n'. *)
Theorem C08_bare_flag : forall reg cb prefer offered i a e s input script st msg s',
  client_start reg cb prefer offered = Ok (i, DScram a false) ->
  i = Builtin (s_mech s) -> no_zero script ->
  step e s input script = (Ok st, msg, s') ->
  (exists rest, msg = lit "y," ++ rest /\ cb = true /\ ~ In (scram_plus_name a) offered) \/
  (exists rest, msg = lit "n," ++ rest /\ (cb = false \/ In (scram_plus_name a) offered)).
Proof. exact bare_flag. Qed.
Print Assumptions C08_bare_flag.

Theorem C08_plus_flag : forall reg cb prefer offered i a e s input script st msg s',
  client_start reg cb prefer offered = Ok (i, DScram a true) ->
  i = Builtin (s_mech s) -> no_zero script ->
  step e s input script = (Ok st, msg, s') ->
  exists rest, msg = lit "p=" ++ rest.
Proof. exact plus_flag. Qed.
Print Assumptions C08_plus_flag.

Example C08_example :
  client_start [DScram SHA1 false] true default_prefer [lit "SCRAM-SHA-1"]
    = Ok (Builtin (s_mech (ex_c ServerNoSupport)), DScram SHA1 false) /\
  client_start [DScram SHA1 false] true default_prefer [lit "SCRAM-SHA-1"; lit "SCRAM-SHA-1-PLUS"]
    = Ok (Builtin (s_mech (ex_c ClientNoSupport)), DScram SHA1 false) /\
  client_start [DScram SHA1 false; DScram SHA1 true] true default_prefer
      [lit "SCRAM-SHA-1"; lit "SCRAM-SHA-1-PLUS"]
    = Ok (Builtin (s_mech (ex_c Supported)), DScram SHA1 true) /\
  step ex_cl (ex_c ServerNoSupport) None [] = (Ok Running, ex_y1, ex_ys1) /\
  step ex_cl (ex_c ClientNoSupport) None [] = (Ok Running, ex_n1, ex_ns1) /\
  step ex_cl (ex_c Supported) None [] = (Ok Running, ex_b1, ex_bs1).
Proof.
  split; [reflexivity|]. split; [reflexivity|]. split; [reflexivity|].
  split; [exact ex_yrun1|]. split; [exact ex_nrun1|exact ex_brun1].
Qed.

(** ** C09 *)

(** A server with -PLUS refuses every client-first message with flag 'y'. *)
Theorem C09_downgrade_refused :
  forall reg name i a plus e s m two z user cn t script r out s',
  server_start reg name = Ok (i, DScram a plus) -> i = Builtin (s_mech s) ->
  plus = true \/ (exists x, In x reg /\ d_name x = scram_plus_name a) ->
  client_first_fields m CbSupportedNotUsed two z user cn t ->
  step e s (Some m) script = (r, out, s') ->
  r = Err (EMech MScramChannelBindingsNotUsed) /\ out = [] /\ new_events s s' [] /\
  s_val s' = s_val s.
Proof. exact downgrade_detected. Qed.
Print Assumptions C09_downgrade_refused.

(** A server without -PLUS goes on, whether it knows the user or not. *)
Theorem C09_accepts_without_plus :
  forall reg name i a e s m two z user cn t (o : option stored),
  server_start reg name = Ok (i, DScram a false) -> i = Builtin (s_mech s) ->
  (forall x, In x reg -> d_name x <> scram_plus_name a) ->
  client_first_fields m CbSupportedNotUsed two z user cn t ->
  looks_up e user z o -> (forall sp, o = Some sp -> usable a sp) ->
  exists out s', step e s (Some m) [] = (Ok Running, out, s').
Proof. exact no_downgrade_accepted. Qed.
Print Assumptions C09_accepts_without_plus.

Lemma ex_y_fields : client_first_fields (lit "y,,n=user,r=abc,x=1") CbSupportedNotUsed (lit "a=") None
  (lit "user") (lit "abc") (lit ",x=1").
Proof.
  split; [reflexivity|]. split; [reflexivity|]. split; [exact I|]. split.
  { repeat constructor; try discriminate. }
  split; [right; eexists; reflexivity|]. unfold free. cbn.
  split; [intros []|]. split; [intuition discriminate|]. split; reflexivity.
Qed.
Example C09_example :
  server_start [DScram SHA1 true; DScram SHA1 false] (lit "SCRAM-SHA-1")
    = Ok (Builtin (s_mech (ex_s true)), DScram SHA1 false) /\
  server_start [DScram SHA1 false] (lit "SCRAM-SHA-1")
    = Ok (Builtin (s_mech (ex_s false)), DScram SHA1 false) /\
  looks_up ex_sv (lit "user") None (Some ex_sp) /\ usable SHA1 ex_sp /\
  res_of (step ex_sv (ex_s true) (Some (lit "y,,n=user,r=abc,x=1")) [])
    = Err (EMech MScramChannelBindingsNotUsed) /\
  res_of (step ex_sv (ex_s false) (Some (lit "y,,n=user,r=abc,x=1")) []) = Ok Running.
Proof.
  split; [reflexivity|]. split; [reflexivity|].
  split; [intros tr c _; cbn; repeat split|]. split; [split; reflexivity|].
  split; vm_compute; reflexivity.
Qed.

(** ** C10 *)

(** C10 is false: a server of SCRAM-SHA-1-PLUS validates a client that did not bind the
    channel. *)
Theorem C10_insists_refuted :
  ~ forall e i s0 m1 out1 s1 m2 out2 s2 evs c,
      server_start [DScram SHA1 true] (lit "SCRAM-SHA-1-PLUS") = Ok (i, DScram SHA1 true) ->
      i = Builtin (s_mech s0) -> crypto_ok e ->
      step e s0 (Some m1) [] = (Ok Running, out1, s1) ->
      step e s1 (Some m2) [] = (Ok (Finished true), out2, s2) ->
      new_events s1 s2 evs -> In (EvValidate c) evs ->
      exists name rest, m1 = lit "p=" ++ name ++ lit "," ++ rest.
Proof.
  intros H.
  destruct (H ex_sv _ (ex_s true) _ _ _ _ _ _
    [EvValidate [mk_entry PAuthId (lit "user"); mk_entry PAuthzId (lit "admin")]] _
    eq_refl eq_refl (ex_crypto _ _ _) ex_nrun2 ex_nrun4 eq_refl (or_introl eq_refl))
    as [name [rest E]].
  discriminate E.
Qed.
Print Assumptions C10_insists_refuted.

(** C10, what holds: such a server never vouches for a client with flag 'y', and if the client
    announced a binding it is verified against the server's own data. Missing for the full
    property: clients with flag 'n', for which it is false (C10_insists_refuted). *)
Theorem C10_binding_partial : forall e s0 a m1 script1 st out1 s1 m2 script2 r out2 s2,
  s_mech s0 = XScramS a (Some (SsClientFirst true)) -> crypto_ok e -> no_zero script1 ->
  step e s0 (Some m1) script1 = (Ok st, out1, s1) ->
  step e s1 (Some m2) script2 = (r, out2, s2) ->
  vouches s1 s2 out2 ->
  exists evs f two z user cn t data sp,
    new_events s0 s1 evs /\ client_first_fields m1 f two z user cn t /\
    answers PScramStoredPassword evs = [sp] /\
    proven e a f z user cn (nonce_from e (s_rng s0)) out1 m2 data sp /\
    ((exists name, f = CbUsed name /\ cb_source e evs name data) \/
     (f = CbNotSupported /\ data = [])).
Proof. exact plus_server_binding. Qed.
Print Assumptions C10_binding_partial.

Example C10_example :
  step ex_sv (ex_s true) (Some ex_b1) [] = (Ok Running, ex_b2, ex_bs2) /\
  step ex_sv ex_bs2 (Some ex_b3) [] = (Ok (Finished true), ex_b4, ex_bs4) /\
  vouches ex_bs2 ex_bs4 ex_b4.
Proof.
  split; [exact ex_brun2|]. split; [exact ex_brun4|]. right. eexists. reflexivity.
Qed.

(** ** C33 *)

(** C33: for identities without ',' and '='; for the others the server sees the escaped form.
    Error-propagating client callback; any server callback. Missing for the full property:
    identities containing these characters, for which it is false (C33_identity_refuted). *)
Theorem C33_identity_partial :
  forall ec es sc ss a plus splus input script st m sc' evs script2 r out ss',
  s_mech sc = XScramC a (Some (ScInitial plus)) -> polite ec -> no_zero script ->
  step ec sc input script = (Ok st, m, sc') -> new_events sc sc' evs -> text_answers evs ->
  s_mech ss = XScramS a (Some (SsClientFirst splus)) ->
  step es ss (Some m) script2 = (r, out, ss') ->
  exists evs' z zesc user uesc,
    answers PAuthId evs = [user] /\ escape user = Ok uesc /\
    @answered PAuthzId evs z /\ escaped z zesc /\
    new_events ss ss' evs' /\ contexts_name evs' uesc zesc /\
    (free ","%char user -> free "="%char user ->
     (forall x, z = Some x -> free ","%char x /\ free "="%char x) -> contexts_name evs' user z).
Proof. exact identity_arrives. Qed.
Print Assumptions C33_identity_partial.

Definition ex_comma1 : bytes := Eval vm_compute in
  out_of (step (ex_user (lit "a,b")) (ex_c ClientNoSupport) None []).
Definition ex_commas1 : session := Eval vm_compute in
  ses_of (step (ex_user (lit "a,b")) (ex_c ClientNoSupport) None []).
Definition ex_comma2 : bytes := Eval vm_compute in
  out_of (step ex_sv (ex_s false) (Some ex_comma1) []).
Definition ex_commas2 : session := Eval vm_compute in
  ses_of (step ex_sv (ex_s false) (Some ex_comma1) []).
Theorem C33_identity_refuted :
  ~ forall ec es sc ss a plus splus input script st m sc' evs script2 r out ss' evs' user,
      s_mech sc = XScramC a (Some (ScInitial plus)) -> polite ec -> no_zero script ->
      step ec sc input script = (Ok st, m, sc') -> new_events sc sc' evs -> text_answers evs ->
      s_mech ss = XScramS a (Some (SsClientFirst splus)) ->
      step es ss (Some m) script2 = (r, out, ss') ->
      answers PAuthId evs = [user] -> new_events ss ss' evs' ->
      forall q c, In (EvRequest q c) evs' -> get_ref c PAuthId = Some user.
Proof.
  intros H.
  assert (E1 : step (ex_user (lit "a,b")) (ex_c ClientNoSupport) None []
               = (Ok Running, ex_comma1, ex_commas1)) by (vm_compute; reflexivity).
  assert (E2 : step ex_sv (ex_s false) (Some ex_comma1) []
               = (Ok Running, ex_comma2, ex_commas2)) by (vm_compute; reflexivity).
  assert (T : text_answers (s_trace ex_commas1)).
  { ex_text. }
  assert (A : answers PAuthId (s_trace ex_commas1) = [lit "a,b"]) by reflexivity.
  assert (I : In (EvRequest PScramStoredPassword
      [mk_entry PAuthId (lit "a=2Cb"); mk_entry PAuthzId (lit "admin")]) (s_trace ex_commas2))
    by (left; reflexivity).
  pose proof (H _ _ (ex_c ClientNoSupport) (ex_s false) SHA1 ClientNoSupport false _ _ _ _ _ (s_trace ex_commas1) _ _ _ _
    (s_trace ex_commas2) (lit "a,b") eq_refl (ex_cl_polite _) (Forall_nil _) E1 eq_refl T eq_refl E2
    A eq_refl _ _ I) as E.
  discriminate E.
Qed.
Print Assumptions C33_identity_refuted.

Example C33_example :
  polite ex_cl /\
  step ex_cl (ex_c ServerNoSupport) None [] = (Ok Running, ex_y1, ex_ys1) /\
  text_answers (s_trace ex_ys1) /\ answers PAuthId (s_trace ex_ys1) = [lit "user"] /\
  step ex_sv (ex_s false) (Some ex_y1) [] = (Ok Running, ex_y2, ex_ys2) /\
  asked (s_trace ex_ys2) = [PScramStoredPassword].
Proof.
  split; [apply ex_cl_polite|]. split; [exact ex_yrun1|]. split.
  - ex_text.
  - split; [reflexivity|]. split; [exact ex_yrun2|reflexivity].
Qed.
