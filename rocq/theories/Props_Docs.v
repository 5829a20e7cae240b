(** C67. *)
From Coq Require Import List NArith.
From Verif Require Import Bytes Types World CallbackSpec Simple OAuth Scram Gssapi Session
  Spec_Simple Spec_History Spec_Docs ExampleEnv ExampleScram Proof_Docs.
Import ListNotations.

(** C67: whatever a step is fed and whatever the application does, the step asks for, announces
    and shows only what is documented for the mechanism, with the documented contexts. *)
Theorem C67_documented : forall e s input script r out s' evs,
  step e s input script = (r, out, s') -> new_events s s' evs -> Forall (documented (s_mech s)) evs.
Proof. exact only_documented. Qed.
Print Assumptions C67_documented.

(** C67: a successful step asks in one of the orders listed for its state; a failing one stops
    within such an order. *)
Theorem C67_order_partial : forall e s input script r out s' evs,
  step e s input script = (r, out, s') -> new_events s s' evs ->
  (exists rest, In (asked evs ++ rest) (plans (s_mech s))) /\
  (forall st, r = Ok st -> In (asked evs) (plans (s_mech s))).
Proof. exact follows_plans. Qed.
Print Assumptions C67_order_partial.

(** C67: encoding and decoding involve the application not at all. *)
Theorem C67_transfers : forall e s input script,
  s_trace (snd (session_encode e s input script)) = s_trace s /\
  s_trace (snd (session_decode e s input script)) = s_trace s.
Proof. exact transfers_quiet. Qed.
Print Assumptions C67_transfers.

(** C67, refuted: mechanisms/mod.rs:129 has SCRAM query AuthzId, AuthId and Password first and
    the channel bindings afterwards. *)
Theorem C67_order_refuted : ~ (forall e a plus input script st out s' evs,
  step e (ex_at (XScramC a (Some (ScInitial plus)))) input script = (Ok st, out, s') ->
  new_events (ex_at (XScramC a (Some (ScInitial plus)))) s' evs ->
  exists rest, asked evs = [PAuthzId; PAuthId; PPassword] ++ rest).
Proof.
  intros H.
  destruct (H ex_cl SHA1 Supported None [] Running ex_b1 ex_bs1 (s_trace ex_bs1) ex_brun1 eq_refl)
    as [rest K].
  vm_compute in K. discriminate.
Qed.
Print Assumptions C67_order_refuted.

(** All three orders of the SCRAM-PLUS client occur. *)
Definition ex_docs (cbtype : list entry) : env :=
  ex_env (fun r => match r with
    | RSatisfy PChannelBindings => ex_cb [mk_entry PChannelBindings (lit "cb")]
    | _ => ex_cb (cbtype ++ [mk_entry PAuthId (lit "user")]) end) no_vcb no_chan.
Definition ex_docs2 : env :=
  let e := ex_docs [] in
  mk_env (e_sd e) (fun _ _ c r =>
      match r, get_ref c PChannelBindingName with
      | RSatisfy PChannelBindings, Some n =>
          if bytes_eqb n (lit "tls-unique") then ex_cb [mk_entry PChannelBindings (lit "cb")]
          else CRet None
      | _, _ => ex_cb [mk_entry PAuthId (lit "user")]
      end) (e_vcb e) (e_vtag e) (e_chan e) (e_rng e) (e_hash e) (e_hmac e) (e_pbkdf2 e)
    (e_saslprep e) (e_json_to e) (e_json_from e) (e_gss_name e) (e_gss_cred e) (e_gss_step e)
    (e_gss_complete e) (e_gss_flags e) (e_gss_wrap e) (e_gss_unwrap e).
Example C67_order_example :
  let run e := step e (ex_c Supported) None [] in
  let asks e := (res_of (run e), asked (s_trace (ses_of (run e)))) in
  map asks [ex_cl; ex_docs []; ex_docs2]
  = [(Ok Running, [POverrideCBType; PAuthzId; PAuthId]);
     (Ok Running, [POverrideCBType; PChannelBindings; PAuthzId; PAuthId]);
     (Ok Running, [POverrideCBType; PChannelBindings; PChannelBindings; PAuthzId; PAuthId])] /\
  asks (ex_docs [mk_entry POverrideCBType (lit "x")])
  = (Ok Running, [POverrideCBType; PChannelBindings; PAuthzId; PAuthId]) /\
  plans (s_mech (ex_c Supported)) = map (fun e => snd (asks e)) [ex_cl; ex_docs []; ex_docs2].
Proof. vm_compute. repeat split. Qed.

Example C67_documented_example :
  new_events ex_bs2 ex_bs4 [EvValidate (scram_server_provider (lit "user") (Some (lit "admin")))] /\
  documented (s_mech ex_bs2) (EvValidate (scram_server_provider (lit "user") (Some (lit "admin")))) /\
  ~ documented (s_mech ex_bs2) (EvRequest PPassword []) /\
  ~ documented XPlainS (EvRequest PAuthId []) /\
  ~ documented XPlainC (EvRequest PAuthId [mk_entry PPassword (lit "x")]).
Proof.
  split; [vm_compute; reflexivity|]. split.
  - exact (Forall_inv (only_documented ex_sv ex_bs2 _ _ _ _ ex_bs4 _ ex_brun4 eq_refl)).
  - split; [intros [l [H _]]; inversion H|]. split; [intros [l [H _]]; inversion H|].
    intros [l [H [A _]]]. inversion H; subst. apply (A PPassword). vm_compute. discriminate.
Qed.

Example C67_transfers_example :
  let s := mk_session (XGssapiC (GcCompleted (Some ([], true)))) [EvChan (lit "x")] 0 None in
  exists s', session_encode ex_cl s (lit "data") [] = (Ok 4, lit "data", s') /\
    s_mech s' <> s_mech s /\ s_trace s' = s_trace s.
Proof. eexists. split; [vm_compute; reflexivity|]. split; [discriminate|reflexivity]. Qed.
