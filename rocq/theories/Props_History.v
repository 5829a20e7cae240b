(** Property theorems about whole histories of a session. *)
From Verif Require Import Bytes Base64 Types World CallbackSpec Simple OAuth Scram Gssapi Session
  Registry Spec_Simple Spec_Registry Spec_History ExampleEnv ExampleScram Proof_History
  Proof_Recover Props_Simple.

(** C46 as stated is false for SCRAM: after InputDataRequired the next step panics. *)
Theorem C46_recoverable_refuted :
  ~ (forall e s input script out s', step e s input script = (Err EInputDataRequired, out, s') ->
       new_events s s' [] -> s' = s).
Proof.
  intros H.
  assert (E : step ex_cl ex_bs1 None []
            = (Err EInputDataRequired, [],
               mk_session (XScramC SHA1 None) (s_trace ex_bs1) (s_rng ex_bs1) (s_val ex_bs1))).
  { vm_compute. reflexivity. }
  apply H in E; [discriminate E|]. unfold new_events. rewrite app_nil_r. reflexivity.
Qed.
Print Assumptions C46_recoverable_refuted.
Example C46_then_panics :
  exists s', step ex_cl ex_bs1 None [] = (Err EInputDataRequired, [], s') /\
    res_of (step ex_cl s' (Some ex_b2) []) = Panic.
Proof. eexists. split; [vm_compute; reflexivity|vm_compute; reflexivity]. Qed.

(** C46: the other mechanisms. Missing for the full statement: SCRAM, which panics, and GSSAPI,
    which refuses to go on. "No new events" excludes an InputDataRequired error that came from
    the application's own callback. *)
Theorem C46_recoverable_partial : forall e s input script out s',
  ~ is_gssapi (s_mech s) -> ~ is_scram (s_mech s) ->
  step e s input script = (Err EInputDataRequired, out, s') -> new_events s s' [] ->
  out = [] /\ s' = s.
Proof. exact input_required_recovers. Qed.
Print Assumptions C46_recoverable_partial.

Example C46_example :
  let s := snd (step ex_e (ex_start (XLoginS LsNew)) None []) in
  s_mech s = XLoginS LsUser /\ step ex_e s None [] = (Err EInputDataRequired, [], s) /\
  fst (fst (step ex_e s (Some (lit "bob")) [])) = Ok Running.
Proof. repeat split; vm_compute; reflexivity. Qed.

(** C47 as stated is false: the SCRAM server reports Finished without asking the application if
    the proof is wrong. *)
Definition ex_wrong : bytes := Eval vm_compute in
  out_of (step (ex_env (fun _ => ex_cb [mk_entry PAuthId (lit "user");
     mk_entry PAuthzId (lit "admin"); mk_entry PPassword (lit "wrong")]) no_vcb ex_chan)
     ex_bs1 (Some ex_b2) []).
Theorem C47_exactly_once_refuted :
  ~ (forall e s s1 input script b out s2 evs a,
       s_mech s = XScramS a (Some (SsClientFirst true)) -> ongoing e s s1 ->
       step e s1 input script = (Ok (Finished b), out, s2) -> new_events s s2 evs ->
       length (validations evs) = 1).
Proof.
  intros H.
  pose (s2 := mk_session (XScramS SHA1 (Some SsFinished)) (s_trace ex_bs2) (s_rng ex_bs2)
                (s_val ex_bs2)).
  assert (E : step ex_sv ex_bs2 (Some ex_wrong) []
            = (Ok (Finished true), lit "e=invalid-proof", s2)).
  { vm_compute. reflexivity. }
  specialize (H ex_sv (ex_s true) ex_bs2 (Some ex_wrong) [] true (lit "e=invalid-proof") s2
                (s_trace ex_bs2) SHA1 eq_refl).
  assert (O : ongoing ex_sv (ex_s true) ex_bs2).
  { eapply (ongoing_step _ _ (ex_s true) (Some ex_b1) [] ex_b2); [constructor|exact ex_brun2]. }
  specialize (H O E eq_refl). vm_compute in H. discriminate.
Qed.
Print Assumptions C47_exactly_once_refuted.

(** C47: it asks exactly once when it finishes. Missing: SCRAM (see the refutation) and GSSAPI
    (see C47_gssapi in Props_Evidence.v); that no server asks more than once is
    C47_at_most_once there. *)
Theorem C47_exactly_once_partial : forall e reg name m s s1 input script b out s2 evs,
  server_start reg name = Ok (Builtin (s_mech s), m) ->
  ongoing e s s1 -> step e s1 input script = (Ok (Finished b), out, s2) -> new_events s s2 evs ->
  m <> DGssapi -> (forall a p, m <> DScram a p) -> length (validations evs) = 1.
Proof. exact exactly_one_validation. Qed.
Print Assumptions C47_exactly_once_partial.

Example C47_example :
  let s := ex_start (XLoginS LsNew) in
  let s1 := snd (step ex_e s None []) in
  let s2 := snd (step ex_e s1 (Some (lit "bob")) []) in
  let s3 := snd (step ex_e s2 (Some (lit "pw")) []) in
  server_start [DLogin] (lit "LOGIN") = Ok (Builtin (s_mech s), DLogin) /\
  ongoing ex_e s s2 /\ fst (fst (step ex_e s2 (Some (lit "pw")) [])) = Ok (Finished false) /\
  validations (s_trace s3) = [login_provider (lit "bob") (lit "pw")].
Proof.
  cbv zeta. split; [vm_compute; reflexivity|]. split.
  { eapply ongoing_step with (input := Some (lit "bob")) (script := []);
      [eapply ongoing_step with (input := None) (script := []); [constructor|]|];
      vm_compute; reflexivity. }
  split; vm_compute; reflexivity.
Qed.
Example C47_error_example :
  let e := ex_env (fun _ => ex_cb [mk_entry PXOAuth2Validate (Some (lit "expired"))]) no_vcb
             no_chan in
  let s := ex_start (XXOAuth2S OsInitial) in
  let msg := lit "user=u" ++ xo_auth ++ lit "t" ++ soh2 in
  let s1 := snd (step e s (Some msg) []) in
  fst (step e s (Some msg) []) = (Ok Running, lit "expired") /\
  fst (step e s1 (Some []) []) = (Ok (Finished false), []) /\
  length (validations (s_trace (snd (step e s1 (Some []) [])))) = 1.
Proof. repeat split; vm_compute; reflexivity. Qed.

(** C48 as stated is false for SCRAM and OAUTHBEARER, which leave an absent authorization
    identity out. *)
Theorem C48_fixed_refuted :
  ~ (forall e s input script r out s' evs ps c,
       answered_by (s_mech s) ps -> step e s input script = (r, out, s') -> new_events s s' evs ->
       validation_context evs c -> forall q, get_ref c q <> None <-> In q ps).
Proof.
  intros H.
  pose (e := ex_env (fun _ => ex_cb [mk_entry POAuthBearerValidate None]) no_vcb no_chan).
  pose (msg := lit "n,," ++ xo_auth ++ lit "t" ++ soh2).
  destruct (step e (ex_start (XOAuthBearerS OsInitial)) (Some msg) []) as [[r out] s'] eqn:E.
  pose (c := oauthbearer_provider (mk_obmsg None (lit "Bearer t") [])).
  specialize (H e (ex_start (XOAuthBearerS OsInitial)) (Some msg) [] r out s' (s_trace s')
                _ c (ab_oauthbearer OsInitial) E).
  assert (K : s_trace s' = [EvRequest POAuthBearerValidate c; EvAnswer POAuthBearerValidate None;
                            EvValidate c]).
  { replace s' with (snd (step e (ex_start (XOAuthBearerS OsInitial)) (Some msg) []))
      by (rewrite E; reflexivity). vm_compute. reflexivity. }
  specialize (H eq_refl). rewrite K in H.
  assert (V : validation_context [EvRequest POAuthBearerValidate c;
     EvAnswer POAuthBearerValidate None; EvValidate c] c) by (right; right; left; reflexivity).
  specialize (H V PAuthzId). destruct H as [_ H]. apply H; [left; reflexivity|reflexivity].
Qed.
Print Assumptions C48_fixed_refuted.

(** C48: the set is fixed, except for the authorization identity of SCRAM and OAUTHBEARER. *)
Theorem C48_fixed_partial : forall e s input script r out s' evs ps c,
  answered_by (s_mech s) ps -> step e s input script = (r, out, s') -> new_events s s' evs ->
  validation_context evs c -> forall q, (omits_authzid (s_mech s) -> q <> PAuthzId) ->
  (get_ref c q <> None <-> In q ps).
Proof. exact fixed_context. Qed.
Print Assumptions C48_fixed_partial.

Example C48_example :
  let s1 := snd (step ex_e (ex_start XPlainS) (Some (plain_message [] (lit "a") (lit "pw"))) []) in
  exists c, validation_context (s_trace s1) c /\ get_ref c PAuthzId = Some [] /\
    get_ref c PAuthId = Some (lit "a") /\ get_ref c PHostname = None.
Proof.
  exists (plain_provider (lit "a") [] (lit "pw")).
  split; [left; left; vm_compute; reflexivity|]. repeat split; vm_compute; reflexivity.
Qed.

(** C49: at most two Running results, whatever the input and whatever else happens. *)
Theorem C49_terminates : forall e s n s',
  ~ is_gssapi (s_mech s) -> history e s n s' -> n <= 2.
Proof. exact few_running. Qed.
Print Assumptions C49_terminates.

(** The bound is reached. *)
Example C49_example :
  exists s', history ex_e (ex_start (XLoginS LsNew)) 2 s' /\
    fst (fst (step ex_e s' (Some (lit "pw")) [])) = Ok (Finished false).
Proof.
  pose (s1 := snd (step ex_e (ex_start (XLoginS LsNew)) None [])).
  pose (s2 := snd (step ex_e s1 None [])).
  pose (s3 := snd (step ex_e s2 (Some (lit "bob")) [])).
  exists s3. split; [|vm_compute; reflexivity].
  eapply history_running with (s1 := s2) (input := Some (lit "bob")) (script := []);
    [|vm_compute; reflexivity].
  eapply history_other with (s1 := s1) (input := None) (script := []) (r := Err EInputDataRequired);
    [|vm_compute; reflexivity|discriminate].
  eapply history_running with (s1 := ex_start (XLoginS LsNew)) (input := None) (script := []);
    [constructor|vm_compute; reflexivity].
Qed.

(** C50 as stated is false: a finished PLAIN client sends its message again, and the SCRAM
    client panics. *)
Theorem C50_refused_refuted :
  ~ (forall e s input script b out s1 input2 script2,
       step e s input script = (Ok (Finished b), out, s1) ->
       exists s2, step e s1 input2 script2 = (Err EMechanismDone, [], s2)).
Proof.
  intros H.
  assert (E : exists out s1, step ex_e (ex_start XPlainC) None [] = (Ok (Finished true), out, s1) /\
            res_of (step ex_e s1 None []) = Ok (Finished true)).
  { eexists. eexists. split; vm_compute; reflexivity. }
  destruct E as [out [s1 [E1 E2]]]. destruct (H _ _ _ _ _ _ _ None [] E1) as [s2 E].
  rewrite E in E2. discriminate.
Qed.
Print Assumptions C50_refused_refuted.
Theorem C50_scram_client_panics : forall e s a st input script b out s1 input2 script2,
  s_mech s = XScramC a st -> step e s input script = (Ok (Finished b), out, s1) ->
  exists s2, step e s1 input2 script2 = (Panic, [], s2).
Proof. exact scram_client_panics_after. Qed.
Print Assumptions C50_scram_client_panics.

(** C50: LOGIN, the OAuth clients and GSSAPI, after any further calls. Missing: PLAIN, EXTERNAL,
    ANONYMOUS, the OAuth servers and SCRAM. *)
Theorem C50_refused_partial : forall e s input script b out s1 n s2 input2 script2,
  remembers_done (s_mech s) -> step e s input script = (Ok (Finished b), out, s1) ->
  history e s1 n s2 -> exists s3, step e s2 input2 script2 = (Err EMechanismDone, [], s3).
Proof. exact finished_refuses. Qed.
Print Assumptions C50_refused_partial.

(** C50: the SCRAM server refuses the first further step only; then it panics. *)
Theorem C50_scram_server_partial : forall e s a st input script b out s1 input2 script2,
  s_mech s = XScramS a st -> step e s input script = (Ok (Finished b), out, s1) ->
  exists s2, step e s1 input2 script2 = (Err EMechanismDone, [], s2) /\
    forall input3 script3, exists s3, step e s2 input3 script3 = (Panic, [], s3).
Proof. exact scram_server_refuses_once. Qed.
Print Assumptions C50_scram_server_partial.

Example C50_example :
  let s := ex_start (XLoginC LcPassword) in
  remembers_done (s_mech s) /\
  fst (step ex_e s None []) = (Ok (Finished true), lit "secret") /\
  let s1 := snd (step ex_e s None []) in
  fst (step ex_e s1 (Some (lit "more")) []) = (Err EMechanismDone, []).
Proof. repeat split; vm_compute; reflexivity. Qed.
Example C50_scram_example :
  step ex_sv ex_bs2 (Some ex_b3) [] = (Ok (Finished true), ex_b4, ex_bs4) /\
  step ex_cl ex_bs3 (Some ex_b4) [] = (Ok (Finished false), ex_b5, ex_bs5) /\
  s_mech ex_bs2 = XScramS SHA1 (match s_mech ex_bs2 with XScramS _ o => o | _ => None end) /\
  s_mech ex_bs3 = XScramC SHA1 (match s_mech ex_bs3 with XScramC _ o => o | _ => None end).
Proof.
  split; [exact ex_brun4|]. split; [exact ex_brun5|]. split; vm_compute; reflexivity.
Qed.
