(** C69. *)
From Coq Require Import List NArith.
From Verif Require Import Bytes Utf8 Base64 Num Types World CallbackSpec Simple OAuth ScramParser Scram
  Gssapi Session Registry Spec_Simple Spec_History Spec_Registry Spec_Order Spec_Errors ExampleEnv
  ExampleScram Proof_Errors Props_Gssapi.
Import ListNotations.

(** C69: whatever a step is fed and whatever the application does, an error it returns has a
    cause, in the input, the application, the writer or the state. *)
Theorem C69_causes : forall e s input script x out s',
  step e s input script = (Err x, out, s') ->
  exists evs, new_events s s' evs /\ cause e (s_mech s) input script (s_trace s) evs x.
Proof. exact errors_caused. Qed.
Print Assumptions C69_causes.

(** C69, error.rs:83-93: failed mutual authentication means that a server's signature was not
    the one its knowledge of the credentials would have given, ... *)
Theorem C69_mutual : forall e s input script out s',
  step e s input script = (Err EMutualAuthenticationFailed, out, s') ->
  ~ invents e EMutualAuthenticationFailed ->
  exists a st i v64 v, s_mech s = XScramC a (Some (ScServerFirst st)) /\ input = Some i /\
    server_final_parse i = Ok (SfVerifier v64) /\ decode v64 = Some v /\ v <> wf_verifier st.
Proof. exact mutual_failure. Qed.
Print Assumptions C69_mutual.

(** ... and is only reported on the client side of a mechanism with mutual authentication. *)
Theorem C69_mutual_side : forall e reg sd m s0 s input script out s',
  begun reg sd m s0 -> ongoing e s0 s ->
  step e s input script = (Err EMutualAuthenticationFailed, out, s') ->
  ~ invents e EMutualAuthenticationFailed -> sd = SClient /\ exists a plus, m = DScram a plus.
Proof. exact mutual_client_side. Qed.
Print Assumptions C69_mutual_side.

(** C69: errors of step64, encode and decode, about a missing validation and boxed ones come from
    the application only. *)
Theorem C69_foreign : forall e s input script x out s',
  step e s input script = (Err x, out, s') -> foreign_error x -> invents e x.
Proof. exact never_reported. Qed.
Print Assumptions C69_foreign.

(** C69: the marker a callback uses to stop early never leaves a step. *)
Theorem C69_early : forall e s input script out s',
  step e s input script <> (Err ECbEarlyReturn, out, s').
Proof. exact early_return_hidden. Qed.
Print Assumptions C69_early.

(** C69, error.rs:56-58. *)
Theorem C69_input : forall e s input script out s',
  step e s input script = (Err EInputDataRequired, out, s') -> ~ invents e EInputDataRequired ->
  input = None.
Proof. exact input_missing. Qed.
Print Assumptions C69_input.

(** C69, error.rs:117-120: a property is reported missing only if it was requested and not
    supplied, or announced and not taken. *)
Theorem C69_missing : forall e s input script x out s',
  step e s input script = (Err x, out, s') -> is_missing_prop x = true -> ~ invents e x ->
  exists q evs, x = ECbNoCallback q /\ new_events s s' evs /\
    (unanswered e (s_trace s) evs q \/ unheard evs q).
Proof. exact missing_prop. Qed.
Print Assumptions C69_missing.

(** C69, error.rs:60: from its beginning until it finishes or fails, no mechanism but the
    GSSAPI server reports that it has finished. *)
Theorem C69_done_partial : forall e reg sd m s0 s input script out s',
  begun reg sd m s0 -> ongoing e s0 s -> ~ (sd = SServer /\ m = DGssapi) ->
  ~ invents e EMechanismDone ->
  step e s input script <> (Err EMechanismDone, out, s').
Proof. exact not_done_before. Qed.
Print Assumptions C69_done_partial.

(** C69, error.rs:19-22: an error of kind Outcome is the server's negative verdict. *)
Theorem C69_outcome : forall e s input script k out s',
  step e s input script = (Err (EMech k), out, s') -> kind k = KOutcome ->
  ~ invents e (EMech k) ->
  exists a st i x, s_mech s = XScramC a (Some (ScServerFirst st)) /\ input = Some i /\
    server_final_parse i = Ok (SfError x) /\ k = MScramServerError x.
Proof. exact outcome_means_server_error. Qed.
Print Assumptions C69_outcome.

(** C69, error.rs:13-17: kinds of SCRAM errors on the client side ... *)
Theorem C69_kind_client : forall e s a st input script k out s',
  step e s input script = (Err (EMech k), out, s') -> ~ invents e (EMech k) ->
  s_mech s = XScramC a (Some st) -> (forall plus, st <> ScInitial plus) ->
  exists i, input = Some i /\
  match kind k with
  | KParse => ~ syntax_ok (s_mech s) i \/
      exists sf, server_first_parse i = Ok sf /\ from_utf8 (sf_iterations sf) = None
  | KProtocol => syntax_ok (s_mech s) i
  | KOutcome => exists x, server_final_parse i = Ok (SfError x)
  end.
Proof. exact scram_client_kind. Qed.
Print Assumptions C69_kind_client.

(** ... and on the server side, where two errors are of kind Parse without being about syntax. *)
Theorem C69_kind_server_partial : forall e s a st input script k out s',
  step e s input script = (Err (EMech k), out, s') -> ~ invents e (EMech k) ->
  s_mech s = XScramS a st ->
  exists i, input = Some i /\
  match kind k with
  | KParse => ~ syntax_ok (s_mech s) i \/ k = MScramChannelBindingsNotUsed \/
              k = MScramPasswordHashInvalid
  | KProtocol => syntax_ok (s_mech s) i
  | KOutcome => False
  end.
Proof. exact scram_server_kind. Qed.
Print Assumptions C69_kind_server_partial.

(** C69: a session stays with its mechanism. *)
Theorem C69_impl : forall e s input script r out s',
  step e s input script = (r, out, s') -> same_impl (s_mech s) (s_mech s').
Proof. exact impl_kept. Qed.
Print Assumptions C69_impl.

Lemma ex_cb_quiet vals x : ~ originates (ex_cb vals) x.
Proof.
  induction vals as [|[p v] r IH]; [discriminate|].
  intros [[y|] [H K]]; [apply H; exact K|exact (IH K)].
Qed.
Lemma ex_quiet f vcb ch x : ~ invents (ex_env (fun r => ex_cb (f r)) vcb ch) x.
Proof. intros [tr [c [k H]]]. exact (ex_cb_quiet _ _ H). Qed.
Lemma ex_gss_quiet legs flags acc x : ~ invents (ex_gss legs flags acc) x.
Proof. intros [tr [c [k H]]]. exact (ex_cb_quiet _ _ H). Qed.

(** C69, refuted for the GSSAPI server: a context that needs a second token is reported as
    finished. *)
Theorem C69_done_refuted : ~ (forall e reg sd m s0 s input script out s',
  begun reg sd m s0 -> ongoing e s0 s -> ~ invents e EMechanismDone ->
  step e s input script <> (Err EMechanismDone, out, s')).
Proof.
  intros H.
  assert (E : exists s1 s2, step (ex_gss 2 ex_all (chr 7)) (ex_at (XGssapiS GsInitial))
                              (Some (lit "t")) [] = (Ok Running, lit "tok", s1) /\
    step (ex_gss 2 ex_all (chr 7)) s1 (Some (lit "u")) [] = (Err EMechanismDone, [], s2)).
  { do 2 eexists. split; vm_compute; reflexivity. }
  destruct E as [s1 [s2 [E1 E2]]].
  exact (H _ [] SServer DGssapi (ex_at (XGssapiS GsInitial)) _ _ _ _ _ (fs_gssapi [])
    (ongoing_step _ _ _ _ _ _ _ (ongoing_start _ _) E1) (ex_gss_quiet _ _ _ _) E2).
Qed.
Print Assumptions C69_done_refuted.

(** C69, refuted: errors of kind Parse for messages that do parse. *)
Theorem C69_parse_refuted : ~ (forall e s i script k out s',
  step e s (Some i) script = (Err (EMech k), out, s') -> ~ invents e (EMech k) ->
  kind k = KParse -> ~ syntax_ok (s_mech s) i).
Proof.
  intros H.
  assert (E : exists s', step ex_sv (ex_s true) (Some (lit "y,,n=user,r=abc")) []
    = (Err (EMech MScramChannelBindingsNotUsed), [], s')).
  { eexists. vm_compute. reflexivity. }
  destruct E as [s' E].
  refine (H _ _ _ _ _ _ _ E (ex_quiet _ _ _ _) eq_refl _).
  eexists. vm_compute. reflexivity.
Qed.
Print Assumptions C69_parse_refuted.

(** The same for a stored password of the wrong size and for a writer that fails. *)
Example C69_parse_example :
  let badkey := ex_env (fun _ => ex_cb [mk_entry PScramStoredPassword
                  (mk_stored 4096 (lit "salt") (lit "short") (lit "short"))]) no_vcb no_chan in
  let deny := ex_env (fun _ => ex_cb [mk_entry POAuthBearerValidate
                (Some (mk_oberr (lit "no") None None))]) no_vcb no_chan in
  let msg := lit "n,," ++ soh :: lit "auth=Bearer x" ++ [soh; soh] in
  res_of (step badkey (ex_s true) (Some (lit "n,,n=user,r=abc")) [])
    = Err (EMech MScramPasswordHashInvalid) /\
  res_of (step deny (ex_at (XOAuthBearerS OsInitial)) (Some msg) [WFail 3])
    = Err (EMech MOAuthBearerSerde) /\
  kind MScramPasswordHashInvalid = KParse /\ kind MOAuthBearerSerde = KParse /\
  syntax_ok (XScramS SHA1 (Some (SsClientFirst true))) (lit "n,,n=user,r=abc") /\
  syntax_ok (XOAuthBearerS OsInitial) msg.
Proof. vm_compute. repeat split; eexists; reflexivity. Qed.

(** C69, refuted: an error of kind Protocol for a message that violates the grammar of RFC 5802,
    where an iteration count is a positive number. *)
Theorem C69_protocol_refuted : ~ (forall e s a st i script k out s' sf,
  step e s (Some i) script = (Err (EMech k), out, s') -> ~ invents e (EMech k) ->
  s_mech s = XScramC a (Some (ScClientFirst st)) -> kind k = KProtocol ->
  server_first_parse i = Ok sf ->
  Forall (fun c => In c (lit "0123456789")) (sf_iterations sf)).
Proof.
  intros H.
  pose (s := ex_at (XScramC SHA1 (Some (ScClientFirst (mk_wsf (lit "biws") (lit "abc") (lit "user")))))).
  pose (m := lit "r=abcdef,s=c2FsdA==,i=many").
  assert (E : exists s', step ex_cl s (Some m) []
    = (Err (EMech (MScramProtocol PrIterationCountFormat)), [], s')).
  { eexists. vm_compute. reflexivity. }
  destruct E as [s' E].
  assert (P : exists sf, server_first_parse m = Ok sf /\ sf_iterations sf = lit "many").
  { eexists. vm_compute. split; reflexivity. }
  destruct P as [sf [P I]].
  pose proof (H _ _ _ _ _ _ _ _ _ sf E (ex_quiet _ _ _ _) eq_refl eq_refl P) as F.
  rewrite I in F. inversion F as [|x l X]. vm_compute in X.
  repeat (destruct X as [X|X]; [discriminate|]). exact X.
Qed.
Print Assumptions C69_protocol_refuted.

(** C69, refuted, error.rs:80-81: a server whose application validates nothing finishes all the
    same; the error documented for that is never reported (C69_foreign). *)
Theorem C69_novalidate_refuted : ~ (forall e reg m s0 s input script b out s',
  begun reg SServer m s0 -> ongoing e s0 s ->
  step e s input script = (Ok (Finished b), out, s') -> s_val s' <> None).
Proof.
  intros H.
  assert (E : exists s', step (ex_env (fun _ => ex_cb []) no_vcb no_chan) (ex_at XPlainS)
    (Some (nul :: lit "user" ++ nul :: lit "secret")) [] = (Ok (Finished false), [], s') /\
    s_val s' = None).
  { eexists. split; vm_compute; reflexivity. }
  destruct E as [s' [E V]].
  exact (H _ [] DPlain (ex_at XPlainS) _ _ _ _ _ _ (fs_plain []) (ongoing_start _ _) E V).
Qed.
Print Assumptions C69_novalidate_refuted.

(** Each cause occurs. *)
Example C69_causes_example :
  let quiet vals := ex_env (fun _ => ex_cb vals) no_vcb no_chan in
  let own := ex_env (fun _ => CRet (Some (EBoxed 4))) no_vcb no_chan in
  let deny := ex_env (fun _ => ex_cb []) (fun _ => VRet (Some (VBoxed 1))) no_chan in
  let plain := nul :: lit "user" ++ nul :: lit "secret" in
  res_of (step own (ex_at XPlainC) None []) = Err (EBoxed 4) /\
  res_of (step (quiet []) (ex_at (XLoginS LsNew)) None [WFail 2]) = Err (EIo (IoOther 2)) /\
  res_of (step (quiet []) (ex_at XPlainS) None []) = Err EInputDataRequired /\
  res_of (step (quiet []) (ex_at (XLoginC LcDone)) None []) = Err EMechanismDone /\
  res_of (step (quiet []) (ex_at XPlainS) (Some (lit "x")) []) = Err (EMech (MPlain PlBadFormat)) /\
  res_of (step (quiet []) (ex_at XPlainC) None []) = Err (ECbNoCallback PAuthId) /\
  res_of (step (quiet []) (ex_at (XXOAuth2C OcWaiting)) (Some (lit "{}")) [])
    = Err (ECbNoCallback PXOAuth2Error) /\
  res_of (step deny (ex_at XPlainS) (Some plain) []) = Err (EValidation (VBoxed 1)) /\
  res_of (step (quiet []) (ex_at (XScramC SHA1 (Some (ScInitial Supported)))) None [])
    = Err (EMissingChannelBindingData (lit "tls-unique")) /\
  res_of (step ex_cl ex_bs3 (Some (lit "v=AAAA")) []) = Err EMutualAuthenticationFailed /\
  res_of (step ex_cl ex_bs3 (Some (lit "e=other-error")) [])
    = Err (EMech (MScramServerError SeOtherError)) /\
  kind (MScramServerError SeOtherError) = KOutcome.
Proof. vm_compute. repeat split. Qed.

(** A started SCRAM client meets the hypotheses about begun and ongoing sessions. *)
Example C69_mutual_example :
  begun [] SClient (DScram SHA1 true) (ex_c Supported) /\ ongoing ex_cl (ex_c Supported) ex_bs3 /\
  ~ invents ex_cl EMutualAuthenticationFailed /\ ~ invents ex_cl EMechanismDone.
Proof.
  split; [constructor|]. split.
  - eapply ongoing_step; [eapply ongoing_step; [apply ongoing_start|exact ex_brun1]|exact ex_brun3].
  - split; apply ex_quiet.
Qed.
