(** C94: what a session can do after a step has failed. *)
From Verif Require Import Bytes Types World CallbackSpec Simple OAuth Scram Gssapi Session Registry Spec_Simple Spec_OAuth
  Spec_Session Spec_History Spec_Failed ExampleEnv ExampleScram Proof_Failed.

(** An application that knows one password and returns an error for all others. *)
Definition ex_strict : env :=
  ex_env (fun _ => ex_cb [mk_entry PXOAuth2Validate (Some (lit "denied"))])
    (fun c => match get_ref c PPassword with
              | Some p => if bytes_eqb p (lit "secret") then VFinalize 0 (lit "user") (VRet None)
                          else VRet (Some (VBoxed 1))
              | None => VRet (Some (VBoxed 2))
              end) no_chan.
Definition ex_asked : session := ex_at (XLoginS (LsPass (lit "user"))).
Definition ex_wrong : session := ses_of (step ex_strict ex_asked (Some (lit "guess")) []).

(** C94 is false: a LOGIN server that has refused a password validates the next one. *)
Theorem C94_over_refuted :
  ~ (forall e s input script x out s',
       step e s input script = (Err x, out, s') -> x <> EInputDataRequired -> over s').
Proof.
  intros H.
  assert (E : exists x, step ex_strict ex_asked (Some (lit "guess")) [] = (Err x, [], ex_wrong) /\ x <> EInputDataRequired)
    by (eexists; split; [vm_compute; reflexivity|discriminate]).
  destruct E as (x & E & X).
  destruct (H _ _ _ _ _ _ _ E X ex_strict ex_wrong (Some (lit "secret")) [] (ca_nil _ _)) as (_ & _ & _ & r & s2 & K & R).
  assert (K2 : res_of (step ex_strict ex_wrong (Some (lit "secret")) []) = Ok (Finished false)) by (vm_compute; reflexivity).
  rewrite K in K2. cbn in K2. subst r. destruct R; discriminate.
Qed.
Print Assumptions C94_over_refuted.

(** It does so any number of times: all the passwords of a list reach the application. *)
Theorem C94_guesses : forall e s u ps s',
  s_mech s = XLoginS (LsPass u) -> refuses e s ps s' ->
  s_mech s' = XLoginS (LsPass u) /\ new_events s s' (map (fun p => EvValidate (login_provider u p)) ps).
Proof. exact login_guesses. Qed.
Print Assumptions C94_guesses.

(** PLAIN, EXTERNAL and ANONYMOUS servers do not even notice: after any calls they are what
    they were at the start. *)
Theorem C94_stateless : forall e s s',
  stateless_server (s_mech s) -> calls e s s' -> s_mech s' = s_mech s.
Proof. exact stateless_calls. Qed.
Print Assumptions C94_stateless.

(** SCRAM sessions of both sides and GSSAPI clients are over as C94 says. *)
Theorem C94_scram_partial : forall e s input script x out s',
  is_scram (s_mech s) -> step e s input script = (Err x, out, s') -> over s'.
Proof. exact scram_over. Qed.
Print Assumptions C94_scram_partial.
Theorem C94_gssapi_client_partial : forall e s input script x out s',
  is_client_gssapi (s_mech s) -> step e s input script = (Err x, out, s') -> over s'.
Proof. exact gssapi_client_over. Qed.
Print Assumptions C94_gssapi_client_partial.

(** So are GSSAPI servers, unless the writer failed at the last token of the context. *)
Theorem C94_gssapi_server_partial : forall e s l input script x out s',
  s_mech s = XGssapiS l -> step e s input script = (Err x, out, s') ->
  over s' \/ ((exists k, x = EIo k) /\ exists c sup, s_mech s' = XGssapiS (GsInstalled c sup)).
Proof. exact gssapi_server_over. Qed.
Print Assumptions C94_gssapi_server_partial.

(** Sessions of the other mechanisms are over, or in the state they were in before, as if the
    failed step had not happened, or OAuth servers that have just told the client of a refusal. *)
Theorem C94_others_partial : forall e s input script x out s',
  ~ is_gssapi (s_mech s) -> ~ is_scram (s_mech s) -> step e s input script = (Err x, out, s') ->
  s_mech s' = s_mech s \/ over s' \/ reported (s_mech s').
Proof. exact failed_left. Qed.
Print Assumptions C94_others_partial.

(** The last ones, although their step has failed, finish with the next call. *)
Theorem C94_reported : forall e s input script,
  reported (s_mech s) -> step e s input script = (Ok (Finished false), [], s).
Proof. exact reported_finishes. Qed.
Print Assumptions C94_reported.

(** ** Examples *)

(** Three guesses; the third is right. *)
Example C94_guesses_example : exists s',
  refuses ex_strict ex_asked [lit "a"; lit "b"] s' /\
  res_of (step ex_strict s' (Some (lit "secret")) []) = Ok (Finished false) /\
  s_val (ses_of (step ex_strict s' (Some (lit "secret")) [])) = Some (lit "user").
Proof.
  exists (ses_of (step ex_strict (ses_of (step ex_strict ex_asked (Some (lit "a")) [])) (Some (lit "b")) [])).
  split; [|split; vm_compute; reflexivity].
  apply (rf_one _ _ _ _ [] (EValidation (VBoxed 1)) [] (ses_of (step ex_strict ex_asked (Some (lit "a")) []))); [vm_compute; reflexivity|].
  eapply (rf_one _ _ _ _ [] (EValidation (VBoxed 1)) []); [vm_compute; reflexivity|]. apply rf_none.
Qed.

(** An XOAUTH2 server whose application refuses the token and does not validate: the step
    fails, the next one finishes. *)
Example C94_reported_example :
  let m := xoauth2_message (lit "user") (lit "tok") in
  let s := ses_of (step ex_strict (ex_at (XXOAuth2S OsInitial)) (Some m) []) in
  (exists x, res_of (step ex_strict (ex_at (XXOAuth2S OsInitial)) (Some m) []) = Err x) /\
  reported (s_mech s) /\ res_of (step ex_strict s (Some []) []) = Ok (Finished false).
Proof. split; [eexists; vm_compute; reflexivity|]. split; [left|]; vm_compute; reflexivity. Qed.

(** A SCRAM client whose step has failed, and a GSSAPI server stopped by its writer, which goes
    on with the next call. *)
Example C94_scram_example :
  is_scram (s_mech ex_bs1) /\
  exists s', step ex_cl ex_bs1 (Some (lit "x")) [] = (Err (EMech (MScramParse PeMissingAttributes)), [], s') /\
    res_of (step ex_cl s' (Some ex_b2) []) = Panic.
Proof. split; [exact I|]. eexists; split; vm_compute; reflexivity. Qed.
Example C94_gssapi_server_example :
  exists s', step ex_strict (ex_at (XGssapiS GsInitial)) (Some (lit "tok")) [WFail 7] = (Err (EIo (IoOther 7)), [], s') /\
    res_of (step ex_strict s' None []) = Ok Running.
Proof. eexists; split; vm_compute; reflexivity. Qed.
