(** Property theorems about GSSAPI. *)
From Coq Require Import NArith.
From Verif Require Import Bytes Types World CallbackSpec Gssapi Session Spec_Simple Spec_History
  Spec_Gssapi ExampleEnv ExampleScram Proof_Gssapi Props_Simple.

(** A GSS library whose contexts need [legs] tokens, can do [flags] and wrap by doing nothing,
    and an application that accepts the layers [acc]. *)
Definition ex_gss (legs : nat) (flags : gflags) (acc : byte) : env :=
  mk_env (mk_sdata (lit "GSSAPI") SClient)
    (fun _ _ _ r => ex_cb [mk_entry PGssService (lit "imap"); mk_entry PHostname (lit "host");
                           mk_entry PGssSecurityLayer acc])
    (fun _ _ _ => VRet None) 0 no_chan (fun _ => 0%N) ex_hash ex_hmac ex_pbkdf2 (fun x => Some x)
    (fun o => ob_status o) (fun x => None) (fun _ => true) true
    (fun c i => Some (Some (lit "tok"))) (fun c => Nat.leb (S legs) (length c))
    (fun _ => Some flags) (fun c conf m => Some m) (fun c m => Some m).
Lemma ex_gss_polite legs flags acc : polite (ex_gss legs flags acc).
Proof.
  intros tr c k. cbn -[mk_entry].
  split; [intros x; reflexivity|]. split; [intros x; reflexivity|].
  split; [intros x; reflexivity|]. exact I.
Qed.
Definition ex_all : gflags := mk_gflags true true true.
Definition ex_no_conf : gflags := mk_gflags true false true.
Definition ex_token (b : N) : bytes := [chr b; chr 255; chr 255; chr 255].

(** C51 as stated is false: the client uses confidentiality although the context does not
    provide it, if the application also accepts something weaker. *)
Theorem C51_confidentiality_refuted :
  ~ (forall e s s1 input script b out s2,
       polite e -> s_mech s = XGssapiC GcInitial -> ongoing e s s1 ->
       step e s1 input script = (Ok (Finished b), out, s2) ->
       uses_layer (s_mech s2) LayerConfidentiality ->
       exists c flags, e_gss_flags e c = Some flags /\ capable flags LayerConfidentiality).
Proof.
  intros H. pose (e := ex_gss 1 ex_no_conf (chr 7)). pose (s := ex_start (XGssapiC GcInitial)).
  assert (E1 : exists s1, step e s None [] = (Ok Running, lit "tok", s1) /\
    exists out s2, step e s1 (Some (ex_token 7)) [] = (Ok (Finished true), out, s2) /\
      exists c, s_mech s2 = XGssapiC (GcCompleted (Some (c, true)))).
  { eexists. split; [vm_compute; reflexivity|]. eexists. eexists.
    split; [vm_compute; reflexivity|]. eexists. cbn. reflexivity. }
  destruct E1 as [s1 [E1 [out [s2 [E2 [c Ec]]]]]].
  destruct (H e s s1 (Some (ex_token 7)) [] true out s2) as [c' [flags [Hf [_ Hc]]]].
  - apply ex_gss_polite.
  - reflexivity.
  - eapply ongoing_step; [constructor|exact E1].
  - exact E2.
  - rewrite Ec. constructor.
  - injection Hf as <-. discriminate.
Qed.
Print Assumptions C51_confidentiality_refuted.

(** C51: the layer in use is the strongest that was offered and is acceptable, and the response
    selects it as RFC 4752 prescribes. The context is known to provide
    confidentiality only if the application accepts nothing else; that is what is missing. *)
Theorem C51_layer_partial : forall e s s1 input script b out s2 evs,
  polite e -> s_mech s = XGssapiC GcInitial -> ongoing e s s1 ->
  step e s1 input script = (Ok (Finished b), out, s2) -> new_events s s2 evs ->
  exists c token offer rest acc ly wrapped,
    (* the context, and the server's offer *)
    opened_for evs c /\ e_gss_complete e c = true /\ input = Some token /\
    e_gss_unwrap e c token = Some (offer :: rest) /\ length rest = 3 /\ known_layers offer /\
    acceptable_to evs acc /\
    (* the layer in use *)
    uses_layer (s_mech s2) ly /\ layer_in ly offer /\ layer_in ly acc /\
    (forall l, layer_in l offer -> layer_in l acc -> weaker l ly) /\
    (* the response *)
    b = true /\ out = wrapped /\
    e_gss_wrap e (c ++ [GUnwrap token]) false (layer_octet ly :: size_for (is_protected ly))
      = Some wrapped /\
    (answers PGssSecurityLayer evs <> [] ->
     ~ layer_in LayerNone acc -> ~ layer_in LayerIntegrity acc ->
     exists flags, e_gss_flags e c = Some flags /\ capable flags LayerConfidentiality).
Proof. exact client_layer. Qed.
Print Assumptions C51_layer_partial.

Example C51_example :
  let e := ex_gss 2 ex_all (chr 6) in
  let s := ex_start (XGssapiC GcInitial) in
  let s1 := snd (step e s None []) in
  let s2 := snd (step e s1 (Some (lit "t1")) []) in
  let s3 := snd (step e s2 (Some (ex_token 3)) []) in
  polite e /\ ongoing e s s2 /\
  fst (step e s2 (Some (ex_token 3)) []) = (Ok (Finished true), ex_token 2) /\
  uses_layer (s_mech s3) LayerIntegrity /\ answers PGssSecurityLayer (s_trace s3) = [chr 6].
Proof.
  cbv zeta. split; [apply ex_gss_polite|]. split.
  { eapply ongoing_step with (input := Some (lit "t1")) (script := []) (out := lit "tok");
      [eapply ongoing_step with (input := None) (script := []) (out := lit "tok");
       [constructor|]|]; vm_compute; reflexivity. }
  split; [vm_compute; reflexivity|]. split; [|vm_compute; reflexivity].
  match goal with |- uses_layer ?m _ => let m' := eval vm_compute in m in
    replace m with m' by (vm_compute; reflexivity) end. constructor.
Qed.

(** C52 as stated is false: a client that selects several layers, one of which was offered, makes
    the server use one that was not. *)
Theorem C52_offered_refuted :
  ~ (forall e s s1 input script b out s2 evs acc ly,
       polite e -> s_mech s = XGssapiS GsInitial -> ongoing e s s1 ->
       step e s1 input script = (Ok (Finished b), out, s2) -> new_events s s2 evs ->
       acceptable_to evs acc -> uses_layer (s_mech s2) ly -> layer_in ly acc).
Proof.
  intros H. pose (e := ex_gss 1 ex_all (chr 2)). pose (s := ex_start (XGssapiS GsInitial)).
  assert (E1 : exists s1, step e s (Some (lit "t")) [] = (Ok Running, lit "tok", s1) /\
    exists s2, step e s1 None [] = (Ok Running, ex_token 2, s2) /\
    exists out s3, step e s2 (Some (ex_token 6)) [] = (Ok (Finished false), out, s3) /\
      answers PGssSecurityLayer (s_trace s3) = [chr 2] /\
      exists c, s_mech s3 = XGssapiS (GsDone (Some (c, true)))).
  { eexists. split; [vm_compute; reflexivity|]. eexists. split; [vm_compute; reflexivity|].
    eexists. eexists. split; [vm_compute; reflexivity|]. split; [vm_compute; reflexivity|].
    eexists. cbn. reflexivity. }
  destruct E1 as [s1 [E1 [s2 [E2 [out [s3 [E3 [Ea [c Ec]]]]]]]]].
  specialize (H e s s2 (Some (ex_token 6)) [] false out s3 (s_trace s3) (chr 2)
                LayerConfidentiality (ex_gss_polite _ _ _) eq_refl).
  assert (O : ongoing e s s2).
  { eapply ongoing_step; [eapply ongoing_step; [constructor|exact E1]|exact E2]. }
  specialize (H O E3 eq_refl (or_introl Ea)). rewrite Ec in H.
  specialize (H (ul_server_conf c)). vm_compute in H. discriminate.
Qed.
Print Assumptions C52_offered_refuted.

(** C52: what was offered is acceptable and within the context's abilities, a server that does
    not accept "none" always uses a layer, and a client that selects one layer, as RFC 4752
    requires, gets that layer and it was offered. Missing: clients that select several. *)
Theorem C52_layer_partial : forall e s s1 input script b out s2 evs,
  polite e -> s_mech s = XGssapiS GsInitial -> ongoing e s s1 ->
  step e s1 input script = (Ok (Finished b), out, s2) -> new_events s s2 evs ->
  exists c flags acc offer size token choice rest ly,
    (* the context was established and can do [flags]; [offer] was sent *)
    e_gss_complete e c = true /\ e_gss_flags e c = Some flags /\ acceptable_to evs acc /\
    (forall l, layer_in l offer <-> layer_in l acc /\ capable flags l) /\
    (size = size_for false <-> forall l, layer_in l offer -> l = LayerNone) /\
    (size = size_for true \/ size = size_for false) /\
    e_gss_wrap e c false (offer :: size) <> None /\
    (* the client's choice *)
    input = Some token /\
    e_gss_unwrap e (c ++ [GWrap false (offer :: size)]) token = Some (choice :: rest) /\
    length rest = 3 /\ known_layers choice /\
    (* the layer in use *)
    uses_layer (s_mech s2) ly /\
    (ly = LayerNone -> layer_in LayerNone acc) /\
    (forall l, selects_one choice l -> ly = l /\ layer_in l offer).
Proof. exact server_layer. Qed.
Print Assumptions C52_layer_partial.

Example C52_example :
  let e := ex_gss 1 ex_no_conf (chr 7) in
  let s := ex_start (XGssapiS GsInitial) in
  let s1 := snd (step e s (Some (lit "t")) []) in
  let s2 := snd (step e s1 None []) in
  let s3 := snd (step e s2 (Some (ex_token 2)) []) in
  polite e /\ ongoing e s s2 /\
  fst (step e s1 None []) = (Ok Running, ex_token 3) /\
  fst (step e s2 (Some (ex_token 2)) []) = (Ok (Finished false), []) /\
  uses_layer (s_mech s3) LayerIntegrity /\ selects_one (chr 2) LayerIntegrity.
Proof.
  cbv zeta. split; [apply ex_gss_polite|]. split.
  { eapply ongoing_step with (input := None) (script := []) (out := ex_token 3);
      [eapply ongoing_step with (input := Some (lit "t")) (script := []) (out := lit "tok");
       [constructor|]|]; vm_compute; reflexivity. }
  split; [vm_compute; reflexivity|]. split; [vm_compute; reflexivity|]. split.
  - match goal with |- uses_layer ?m _ => let m' := eval vm_compute in m in
      replace m with m' by (vm_compute; reflexivity) end. constructor.
  - intros l. destruct l; vm_compute; split; congruence.
Qed.

(** C53 as stated is false: a context that needs a second token is dropped. *)
Theorem C53_multi_leg_refuted :
  ~ (forall e s t1 script out s1 t2 script2 t,
       s_mech s = XGssapiS GsInitial -> step e s (Some t1) script = (Ok Running, out, s1) ->
       e_gss_step e [GAccept; GStep (Some t1)] (Some t2) = Some t ->
       res_of (step e s1 (Some t2) script2) <> Err EMechanismDone).
Proof.
  intros H.
  assert (E : exists s1, step (ex_gss 2 ex_all (chr 7)) (ex_start (XGssapiS GsInitial))
                           (Some (lit "t")) [] = (Ok Running, lit "tok", s1) /\
    res_of (step (ex_gss 2 ex_all (chr 7)) s1 (Some (lit "u")) []) = Err EMechanismDone).
  { eexists. split; vm_compute; reflexivity. }
  destruct E as [s1 [E1 E2]].
  exact (H _ (ex_start (XGssapiS GsInitial)) _ _ _ _ (lit "u") [] (Some (lit "tok")) eq_refl E1
           eq_refl E2).
Qed.
Print Assumptions C53_multi_leg_refuted.
(** C53: whatever the library does, an incomplete context never gets its next token. *)
Theorem C53_incomplete_lost : forall e s input script out s1 input2 script2,
  s_mech s = XGssapiS GsInitial -> step e s (Some input) script = (Ok Running, out, s1) ->
  e_gss_complete e [GAccept; GStep (Some input)] = false ->
  exists s2, step e s1 input2 script2 = (Err EMechanismDone, [], s2).
Proof. exact server_multi_leg. Qed.
Print Assumptions C53_incomplete_lost.

(** C53: a context established by the first token is kept. Missing: all longer ones. *)
Theorem C53_kept_partial : forall e s input script out s1,
  s_mech s = XGssapiS GsInitial -> step e s (Some input) script = (Ok Running, out, s1) ->
  e_gss_complete e [GAccept; GStep (Some input)] = true ->
  exists offer, s_mech s1 = XGssapiS (GsInstalled [GAccept; GStep (Some input)] offer) \/
    exists size, s_mech s1 =
      XGssapiS (GsFinal [GAccept; GStep (Some input); GWrap false (offer :: size)] offer).
Proof. exact server_single_leg. Qed.
Print Assumptions C53_kept_partial.

Example C53_example :
  let e := ex_gss 1 ex_all (chr 7) in
  e_gss_complete e [GAccept; GStep (Some (lit "t"))] = true /\
  fst (step e (ex_start (XGssapiS GsInitial)) (Some (lit "t")) []) = (Ok Running, lit "tok").
Proof. split; vm_compute; reflexivity. Qed.
Example C53_lost_example :
  let e := ex_gss 2 ex_all (chr 7) in
  e_gss_complete e [GAccept; GStep (Some (lit "t"))] = false /\
  fst (step e (ex_start (XGssapiS GsInitial)) (Some (lit "t")) []) = (Ok Running, lit "tok").
Proof. split; vm_compute; reflexivity. Qed.

(** C54 *)
Theorem C54_encode : forall e s c conf input script,
  protects (s_mech s) c conf ->
  exists after, protects after (c ++ [GWrap conf input]) conf /\
    sends (e_gss_wrap e c conf input) (length input) script after
      (session_encode e s input script).
Proof. exact encode_sends. Qed.
Print Assumptions C54_encode.
Theorem C54_decode : forall e s c conf input script,
  protects (s_mech s) c conf ->
  exists after, protects after (c ++ [GUnwrap input]) conf /\
    sends (e_gss_unwrap e c input) (length input) script after
      (session_decode e s input script).
Proof. exact decode_sends. Qed.
Print Assumptions C54_decode.
Theorem C54_exactly_with_layer : forall s,
  has_security_layer s = true <-> exists c conf, protects (s_mech s) c conf.
Proof. exact has_layer_protects. Qed.
Print Assumptions C54_exactly_with_layer.

Definition ex_layer (conf : bool) : session :=
  ex_start (XGssapiC (GcCompleted (Some ([GInit (lit "imap@host")], conf)))).
Example C54_example :
  protects (s_mech (ex_layer true)) [GInit (lit "imap@host")] true /\
  fst (session_encode (ex_gss 1 ex_all (chr 7)) (ex_layer true) (lit "hello") [])
    = (Ok 5, lit "hello") /\
  fst (session_decode (ex_gss 1 ex_all (chr 7)) (ex_layer true) (lit "hello") [WAccept 2; WFail 3])
    = (Err (EIo (IoOther 3)), lit "he").
Proof. split; [left; reflexivity|]. split; vm_compute; reflexivity. Qed.

(** C64 is false as stated: a final token with an authorization identity is refused. *)
Theorem C64_authzid_refuted :
  ~ (forall e s c offer token script choice b1 b2 b3 authzid,
       s_mech s = XGssapiS (GsFinal c offer) ->
       e_gss_unwrap e c token = Some (choice :: b1 :: b2 :: b3 :: authzid) ->
       known_layers choice -> layer_in LayerIntegrity choice -> layer_in LayerIntegrity offer ->
       exists b, res_of (step e s (Some token) script) = Ok (Finished b)).
Proof.
  intros H. destruct (H (ex_gss 1 ex_all (chr 7))
    (ex_start (XGssapiS (GsFinal [] (chr 7)))) [] (chr 7) (ex_token 2 ++ lit "admin") []
    (chr 2) (chr 255) (chr 255) (chr 255) (lit "admin")) as [b E]; try reflexivity.
  - intros n. destruct n as [|[[]|[]|]]; cbn; intros E; try discriminate E; discriminate.
  - discriminate E.
Qed.
Print Assumptions C64_authzid_refuted.

(** C64: accepted are exactly the tokens of four octets whose first one selects known layers, one
    of them offered. Missing: authorization identities. *)
Theorem C64_token_partial : forall e s c offer token script t r out s',
  s_mech s = XGssapiS (GsFinal c offer) -> e_gss_unwrap e c token = Some t ->
  step e s (Some token) script = (r, out, s') ->
  out = [] /\
  ((exists choice b1 b2 b3, t = [choice; b1; b2; b3] /\ known_layers choice /\
      (exists l, layer_in l choice /\ layer_in l offer) /\ r = Ok (Finished false)) \/
   (~ (exists choice b1 b2 b3, t = [choice; b1; b2; b3] /\ known_layers choice /\
         exists l, layer_in l choice /\ layer_in l offer) /\
    r = Err (EMech MGssBadFinalToken) /\ s_mech s' = XGssapiS GsErrored)).
Proof. exact final_token. Qed.
Print Assumptions C64_token_partial.

Example C64_example :
  let e := ex_gss 1 ex_all (chr 7) in
  let s := ex_start (XGssapiS (GsFinal [] (chr 6))) in
  map (fun t => fst (step e s (Some t) []))
    [ex_token 2; ex_token 1; ex_token 10; [chr 2]; ex_token 4 ++ lit "admin"]
  = [(Ok (Finished false), []); (Err (EMech MGssBadFinalToken), []);
     (Err (EMech MGssBadFinalToken), []); (Err (EMech MGssBadFinalToken), []);
     (Err (EMech MGssBadFinalToken), [])] /\
  e_gss_unwrap e [] (ex_token 2) = Some (ex_token 2).
Proof. split; vm_compute; reflexivity. Qed.
