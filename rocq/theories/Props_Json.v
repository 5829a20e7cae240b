(** C80: error reports of OAUTHBEARER as JSON. *)
From Coq Require Import Lia.
From Verif Require Import Bytes Utf8 Types World CallbackSpec Simple OAuth Scram Gssapi Session Json
  Spec_Wire Spec_Simple Spec_Callback Spec_OAuth Spec_Json ExampleEnv Proof_Utf8 Proof_OAuth
  Proof_Json Proof_JsonWrite.

(** C80, server: what is written is the error object of RFC 7628, section 3.2.2. *)
Theorem C80_written : forall o, text_error o -> error_object any_string (json_to o) o.
Proof. exact written_ok. Qed.
Print Assumptions C80_written.

(** C80, client: the texts that are read, and as which error. Missing for the full property:
    strings with escapes (C80_read_refuted). *)
Theorem C80_read_partial : forall x o,
  json_from x = Some o <-> error_object plain_string x o \/ error_array plain_string x o.
Proof. exact read_iff. Qed.
Print Assumptions C80_read_partial.

(** C80 is false for the client: it refuses the error objects whose strings are written with an
    escape, and reads arrays, which are no error objects. *)
Theorem C80_read_refuted :
  (exists x o, error_object any_string x o /\ json_from x = None) /\
  (exists x o, json_from x = Some o /\ forall o', ~ error_object any_string x o').
Proof. exact read_refuted. Qed.
Print Assumptions C80_read_refuted.

(** C80, both: an error arrives exactly if nothing in it needs escaping. *)
Theorem C80_roundtrip_partial : forall o o', text_error o ->
  json_from (json_to o) = Some o' <-> o' = o /\ plain_error o.
Proof. exact round. Qed.
Print Assumptions C80_roundtrip_partial.

(** C80, sessions: the error the server's application returned is handed to the client's. *)
Theorem C80_exchange_partial : forall e e' s msg script out s' c script' r out' c',
  (forall o, e_json_to e o = json_to o) -> (forall x, e_json_from e' x = json_from x) ->
  s_mech s = XOAuthBearerS OsInitial -> step e s (Some msg) script = (Ok Running, out, s') ->
  s_mech c = XOAuthBearerC OcWaiting -> step e' c (Some out) script' = (r, out', c') ->
  exists err evs, new_events s s' evs /\ answers POAuthBearerValidate evs = [Some err] /\ out' = [] /\
    (text_error err -> plain_error err ->
       exists rest, new_events c c' (EvAction POAuthBearerErrored err [] :: rest) /\
         (r = Ok (Finished true) /\ rest = [EvTaken POAuthBearerErrored] \/ exists x, r = Err x)) /\
    (text_error err -> ~ plain_error err -> new_events c c' [] /\ r = Err (EMech MOAuthBearerSerde)).
Proof. exact json_exchange. Qed.
Print Assumptions C80_exchange_partial.

Definition ex_json (cb : reqkind -> cbprog) : env :=
  let e := ex_env cb no_vcb no_chan in
  mk_env (e_sd e) (e_cb e) (e_vcb e) (e_vtag e) (e_chan e) (e_rng e) (e_hash e) (e_hmac e) (e_pbkdf2 e)
    (e_saslprep e) json_to json_from (e_gss_name e) (e_gss_cred e) (e_gss_step e) (e_gss_complete e)
    (e_gss_flags e) (e_gss_wrap e) (e_gss_unwrap e).
Definition ex_reports (o : oberr) : env := ex_json (fun _ => ex_cb [mk_entry POAuthBearerValidate (Some o)]).
Definition ex_takes : env := ex_json (fun _ => CGetAction POAuthBearerErrored (fun _ => CRet None)).
Definition ex_fresh (m : mech) : session := mk_session m [] 0 None.
(** A text with quotation marks for the apostrophes. *)
Definition dq (x : string) : bytes := map (fun b => if beq b "'"%char then chr 34 else b) (lit x).

(** The error of RFC 7628, section 4.3, and one with a quotation mark. *)
Definition ex_error : oberr :=
  mk_oberr (lit "invalid_token") (Some (lit "example_scope"))
    (Some (lit "https://example.com/.well-known/openid-configuration")).
Definition ex_odd : oberr := mk_oberr (lit "not " ++ chr 34 :: chr 10 :: chr 1 :: lit "ok") None (Some (lit "x")).

Example C80_example :
  text_error ex_error /\ plain_error ex_error /\ text_error ex_odd /\ ~ plain_error ex_odd /\
  json_to ex_error = dq ("{'status':'invalid_token','scope':'example_scope',"
    ++ "'openid-configuration':'https://example.com/.well-known/openid-configuration'}")%string /\
  json_to ex_odd = dq "{'status':'not \'\n\u0001ok','openid-configuration':'x'}" /\
  json_from (dq " { 'a\/b' : [1.5e+3, {}, -0, ['\ud800', null]] , 'scope':null, 'status' : 'invalid_token' } ")
    = Some (mk_oberr (lit "invalid_token") None None) /\
  json_from (dq "['a', null, 'b']") = Some (mk_oberr (lit "a") None (Some (lit "b"))) /\
  json_from (dq "{'status':'a','status':'a'}") = None /\ json_from (dq "{'scope':'a'}") = None /\
  json_from (dq "{'status':'a\/b'}") = None /\ json_from (dq "{'status':1}") = None /\
  json_from (dq "{'status':'a'} x") = None /\ json_from (dq "{'status':'a',}") = None /\
  json_from (dq "{'status':'a','n':01}") = None /\
  let msg := oauthbearer_message None [] (lit "t") in
  let s1 := step (ex_reports ex_error) (ex_fresh (XOAuthBearerS OsInitial)) (Some msg) [] in
  let c1 := step ex_takes (ex_fresh (XOAuthBearerC OcWaiting)) (Some (snd (fst s1))) [] in
  let s2 := step (ex_reports ex_odd) (ex_fresh (XOAuthBearerS OsInitial)) (Some msg) [] in
  let c2 := step ex_takes (ex_fresh (XOAuthBearerC OcWaiting)) (Some (snd (fst s2))) [] in
  fst (fst s1) = Ok Running /\ fst c1 = (Ok (Finished true), []) /\
  s_trace (snd c1) = [EvAction POAuthBearerErrored ex_error []; EvTaken POAuthBearerErrored] /\
  fst (fst s2) = Ok Running /\ fst c2 = (Err (EMech MOAuthBearerSerde), []).
Proof.
  assert (T : text_error ex_error).
  { split; [apply utf8_exact; reflexivity|].
    split; intros s E; injection E as <-; apply utf8_exact; vm_compute; reflexivity. }
  assert (U : text_error ex_odd).
  { split; [apply utf8_exact; reflexivity|].
    split; intros s E; [discriminate|injection E as <-; apply utf8_exact; vm_compute; reflexivity]. }
  split; [exact T|]. split; [apply all_plain_iff; vm_compute; reflexivity|]. split; [exact U|].
  split; [rewrite <- all_plain_iff; vm_compute; discriminate|].
  repeat split; vm_compute; reflexivity.
Qed.
