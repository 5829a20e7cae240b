(** Property theorems about what precedes validation. *)
From Verif Require Import Bytes Types World CallbackSpec Simple OAuth ScramParser Scram Gssapi Session Registry Spec_Simple
  Spec_OAuth Spec_Session Spec_Scram Spec_History Spec_Evidence ExampleEnv ExampleScram Proof_Evidence Props_Gssapi.

(** ** C47 *)

(** No exchange validates more than once. *)
Theorem C47_at_most_once : forall e reg name m s s1 input script r out s2 evs,
  server_start reg name = Ok (Builtin (s_mech s), m) ->
  ongoing e s s1 -> step e s1 input script = (r, out, s2) -> new_events s s2 evs ->
  length (validations evs) <= 1.
Proof. exact at_most_one_validation_any. Qed.
Print Assumptions C47_at_most_once.

(** A GSSAPI server never validates at all: there never is a validation value, whatever is done
    with the session ... *)
Theorem C47_gssapi : forall e reg name s0 s1,
  server_start reg name = Ok (Builtin (s_mech s0), DGssapi) -> s_val s0 = None ->
  calls e s0 s1 -> fst (validation s1) = None.
Proof. exact gss_server_value. Qed.
Print Assumptions C47_gssapi.

(** ... although exchanges finish and layers are installed. *)
Definition ex_g0 : session := mk_session (XGssapiS GsInitial) [] 0 None.
Definition ex_ge : env := ex_gss 1 ex_all (chr 2).
Definition ex_g1 : session := Eval vm_compute in ses_of (step ex_ge ex_g0 (Some (lit "t")) []).
Definition ex_g2 : session := Eval vm_compute in ses_of (step ex_ge ex_g1 None []).
Definition ex_g3 : session := Eval vm_compute in ses_of (step ex_ge ex_g2 (Some (ex_token 2)) []).
Example C47_gssapi_example :
  server_start [DGssapi] (lit "GSSAPI") = Ok (Builtin (s_mech ex_g0), DGssapi) /\
  ongoing ex_ge ex_g0 ex_g2 /\
  step ex_ge ex_g2 (Some (ex_token 2)) [] = (Ok (Finished false), [], ex_g3) /\
  has_security_layer ex_g3 = true /\ validations (s_trace ex_g3) = [].
Proof.
  split; [vm_compute; reflexivity|]. split.
  { eapply ongoing_step with (input := None) (script := []) (out := ex_token 2) (s1 := ex_g1);
      [eapply ongoing_step with (input := Some (lit "t")) (script := []) (out := lit "tok") (s1 := ex_g0);
       [constructor|]|]; vm_compute; reflexivity. }
  split; [vm_compute; reflexivity|]. split; vm_compute; reflexivity.
Qed.

(** ** C93 *)

(** Whatever was done with a server session before, whoever is validated in a step is so for the
    evidence of the mechanism (Spec_Evidence.v). GSSAPI has no case there: it never validates. *)
Theorem C93_evidence : forall e reg name d s0 s1 input script r out s2 evs c,
  server_start reg name = Ok (Builtin (s_mech s0), d) -> crypto_ok e ->
  calls e s0 s1 -> step e s1 input script = (r, out, s2) -> new_events s1 s2 evs ->
  In (EvValidate c) evs -> evidence e s0 s1 input evs c.
Proof. exact validated_with_evidence. Qed.
Print Assumptions C93_evidence.

(** A session has a validation value only if a step with such evidence produced it. *)
Theorem C93_value : forall e reg name d s0 s x,
  server_start reg name = Ok (Builtin (s_mech s0), d) -> s_val s0 = None -> crypto_ok e ->
  calls e s0 s -> fst (validation s) = Some x ->
  exists s1 input script r out s2 evs before c after,
    calls e s0 s1 /\ step e s1 input script = (r, out, s2) /\ calls e s2 s /\
    new_events s1 s2 evs /\ evs = before ++ EvValidate c :: after /\
    evidence e s0 s1 input evs c /\ produces e (s_trace s1 ++ before) c (Some x).
Proof. exact value_with_evidence. Qed.
Print Assumptions C93_value.

(** Client sessions never validate. *)
Theorem C93_clients : forall e reg cb prefer offered d s0 s1 evs,
  client_start reg cb prefer offered = Ok (Builtin (s_mech s0), d) ->
  calls e s0 s1 -> new_events s0 s1 evs -> validations evs = [].
Proof. exact clients_never_validate. Qed.
Print Assumptions C93_clients.

(** A LOGIN server whose application refuses the first password and accepts the second, and a
    SCRAM server. *)
Definition ex_picky : env :=
  ex_env (fun _ => ex_cb []) (fun c => match get_ref c PPassword with
    | Some p => if bytes_eqb p (lit "good") then VFinalize 0 (lit "bob") (VRet None) else VRet (Some (VBoxed 1))
    | None => VRet None end) no_chan.
Definition ex_l0 : session := mk_session (XLoginS LsNew) [] 0 None.
Definition ex_l1 : session := Eval vm_compute in ses_of (step ex_picky ex_l0 None []).
Definition ex_l2 : session := Eval vm_compute in ses_of (step ex_picky ex_l1 (Some (lit "bob")) []).
Definition ex_l3 : session := Eval vm_compute in ses_of (step ex_picky ex_l2 (Some (lit "bad")) []).
Definition ex_l4 : session := Eval vm_compute in ses_of (step ex_picky ex_l3 (Some (lit "good")) []).
Example C93_login_example :
  server_start [DLogin] (lit "LOGIN") = Ok (Builtin (s_mech ex_l0), DLogin) /\
  calls ex_picky ex_l0 ex_l3 /\ res_of (step ex_picky ex_l2 (Some (lit "bad")) []) = Err (EValidation (VBoxed 1)) /\
  step ex_picky ex_l3 (Some (lit "good")) [] = (Ok (Finished false), [], ex_l4) /\
  new_events ex_l3 ex_l4 [EvValidate (login_provider (lit "bob") (lit "good"))] /\
  fst (validation ex_l4) = Some (lit "bob").
Proof.
  split; [vm_compute; reflexivity|]. split.
  { eapply (ca_step _ _ ex_l1 _ None []); [vm_compute; reflexivity|].
    eapply (ca_step _ _ ex_l2 _ (Some (lit "bob")) []); [vm_compute; reflexivity|].
    eapply (ca_step _ _ ex_l3 _ (Some (lit "bad")) []); [vm_compute; reflexivity|constructor]. }
  repeat (split; [vm_compute; reflexivity|]). vm_compute. reflexivity.
Qed.

Example C93_scram_example :
  server_start [DScram SHA1 true] (lit "SCRAM-SHA-1-PLUS") = Ok (Builtin (s_mech (ex_s true)), DScram SHA1 true) /\
  calls ex_sv (ex_s true) ex_bs2 /\ step ex_sv ex_bs2 (Some ex_b3) [] = (Ok (Finished true), ex_b4, ex_bs4) /\
  exists c, new_events ex_bs2 ex_bs4 [EvValidate c] /\ offers_scram c (lit "user") (Some (lit "admin")).
Proof.
  split; [vm_compute; reflexivity|]. split.
  { eapply (ca_step _ _ ex_bs2 _ (Some ex_b1) []); [exact ex_brun2|constructor]. }
  split; [exact ex_brun4|]. eexists. split; [vm_compute; reflexivity|].
  split; [reflexivity|]. split; [reflexivity|]. intros q. destruct q; intros; try reflexivity; congruence.
Qed.

(** For XOAUTH2 and OAUTHBEARER the verdict may be that the token is wrong: the application is
    asked to validate all the same, in a context that does not tell, and a value it then produces
    is kept. *)
Definition ex_lenient : env :=
  ex_env (fun _ => ex_cb [mk_entry PXOAuth2Validate (Some (lit "denied"))])
    (fun c => VFinalize 0 (lit "user") (VRet None)) no_chan.
Example C93_refused_example : exists e s0 s1 input out evs c,
  server_start [DXOAuth2] (lit "XOAUTH2") = Ok (Builtin (s_mech s0), DXOAuth2) /\ s_val s0 = None /\
  step e s0 input [] = (Ok Running, out, s1) /\ new_events s0 s1 evs /\
  answers PXOAuth2Validate evs = [Some (lit "denied")] /\ validations evs = [c] /\
  offers_xoauth2 c (lit "user") (lit "tok") /\ fst (validation s1) = Some (lit "user").
Proof.
  pose (s0 := mk_session (XXOAuth2S OsInitial) [] 0 None).
  exists ex_lenient, s0, (ses_of (step ex_lenient s0 (Some (xoauth2_message (lit "user") (lit "tok"))) [])),
    (Some (xoauth2_message (lit "user") (lit "tok"))), (lit "denied"),
    (s_trace (ses_of (step ex_lenient s0 (Some (xoauth2_message (lit "user") (lit "tok"))) []))),
    (xoauth2_provider (lit "user") (lit "tok")).
  do 6 (split; [vm_compute; reflexivity|]). split; [apply Proof_OAuth.xoauth2_provider_offers|vm_compute; reflexivity].
Qed.
