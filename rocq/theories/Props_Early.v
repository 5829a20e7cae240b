(** C115: what a failing step has written. *)
From Coq Require Import List NArith.
From Verif Require Import Bytes Types World CallbackSpec Simple OAuth Scram Gssapi Session Spec_Simple Spec_Errors
  Spec_Flow Spec_Early ExampleEnv ExampleScram Proof_Early.
Import ListNotations.

(** A server whose application refuses everybody. *)
Definition ex_refusing : env :=
  ex_env (fun _ => ex_cb [mk_entry PScramStoredPassword ex_sp]) (fun _ => VRet (Some (VBoxed 1))) ex_chan.
Definition ex_bs4_refused : session := Eval vm_compute in ses_of (step ex_refusing ex_bs2 (Some ex_b3) []).
Lemma ex_refused : step ex_refusing ex_bs2 (Some ex_b3) [] = (Err (EValidation (VBoxed 1)), ex_b4, ex_bs4_refused).
Proof. vm_compute. reflexivity. Qed.
Lemma ex_cb_polite vals : bubbling (ex_cb vals).
Proof. induction vals as [|[p v] r IH]; cbn; auto. Qed.

(** As stated, C115 is false: a SCRAM server that fails because the application refuses has
    written its signature. *)
Theorem C115_nothing_refuted :
  ~ (forall e s input script x out s', polite e -> (forall y, ~ writer_failed script y) ->
       step e s input script = (Err x, out, s') -> out = []).
Proof.
  intros H. assert (E : ex_b4 = []); [|discriminate E].
  eapply (H ex_refusing ex_bs2 (Some ex_b3) []); [intros tr c k; apply ex_cb_polite| |exact ex_refused].
  intros [|n]; cbn; tauto.
Qed.
Print Assumptions C115_nothing_refuted.

(** And the client whose message the server refused finishes with it. *)
Theorem C115_client_refuted :
  ~ (forall ec es c s i1 sent c' x out s' c2,
       step ec c i1 [] = (Ok Running, sent, c') -> step es s (Some sent) [] = (Err x, out, s') ->
       step ec c' (Some out) [] <> (Ok (Finished false), [], c2)).
Proof.
  intros H. eapply (H ex_cl ex_refusing ex_bs1 ex_bs2); [exact ex_brun3|exact ex_refused|exact ex_brun5].
Qed.
Print Assumptions C115_client_refuted.

(** What is written with the refusal is exactly what is written without it, so no client can
    tell the difference. *)
Theorem C115_scram_refused : forall e vcb s a d input script v out s',
  accepting vcb -> s_mech s = XScramS a (Some (SsClientFinal d)) ->
  step e s input script = (Err (EValidation v), out, s') ->
  (exists c, new_events s s' [EvValidate c]) /\
  exists s2, step (set_apps e (e_cb e) vcb (e_pbkdf2 e)) s input script = (Ok (Finished true), out, s2) /\
    s_trace s2 = s_trace s'.
Proof. exact scram_refused. Qed.
Print Assumptions C115_scram_refused.

(** Otherwise: who has written without the writer's fault is one of the four clients that write
    piece by piece, or one of the three servers that validate after writing. *)
Theorem C115_nothing_partial : forall e s input script x out s',
  polite e -> step e s input script = (Err x, out, s') -> out <> [] ->
  (exists y, writer_failed script y) \/ writes_early (s_mech s) x.
Proof. exact failed_wrote. Qed.
Print Assumptions C115_nothing_partial.

(** A PLAIN client that fails has written no password: nothing, the authorization identity, or
    the names. *)
Theorem C115_plain : forall e s input x out s',
  polite e -> s_mech s = XPlainC -> step e s input [] = (Err x, out, s') ->
  exists z, (z = [] \/ answered PAuthzId z s s') /\
    (out = [] \/ out = z ++ [nul] \/
     exists u, answered PAuthId u s s' /\ out = z ++ nul :: u ++ [nul]).
Proof. exact plain_wrote. Qed.
Print Assumptions C115_plain.

(** The OAuth clients have written no token. *)
Theorem C115_xoauth2 : forall e s input x out s',
  polite e -> s_mech s = XXOAuth2C OcInitial -> step e s input [] = (Err x, out, s') ->
  out = [] \/ exists u, answered PAuthId u s s' /\ out = lit "user=" ++ u ++ xo_auth.
Proof. exact xoauth2_wrote. Qed.
Print Assumptions C115_xoauth2.
Theorem C115_oauthbearer : forall e s input x out s',
  polite e -> s_mech s = XOAuthBearerC OcInitial -> step e s input [] = (Err x, out, s') ->
  out = lit "n," \/
  exists z kv, (z = [] \/ exists v, z = lit "a=" ++ v /\ answered PAuthzId v s s') /\
    (kv = [] \/ answered POAuthBearerKV kv s s') /\ out = lit "n," ++ z ++ lit "," ++ kv_text kv.
Proof. exact bearer_wrote. Qed.
Print Assumptions C115_oauthbearer.

(** A GSSAPI client has written nothing or a whole token of its library. *)
Theorem C115_gssapi : forall e s input x out s',
  polite e -> (exists c, s_mech s = XGssapiC (GcPending c)) \/ s_mech s = XGssapiC GcInitial ->
  step e s input [] = (Err x, out, s') ->
  out = [] \/ exists c, e_gss_step e c input = Some (Some out).
Proof. exact gssapi_wrote. Qed.
Print Assumptions C115_gssapi.

(** ** Examples *)

(** The server of the refused client, and the accepting one. *)
Example C115_scram_refused_example :
  accepting (fun _ _ _ => VRet None) /\ (exists d, s_mech ex_bs2 = XScramS SHA1 (Some (SsClientFinal d))) /\
  step ex_refusing ex_bs2 (Some ex_b3) [] = (Err (EValidation (VBoxed 1)), ex_b4, ex_bs4_refused) /\ ex_b4 <> [].
Proof.
  split; [intros tr sd c; reflexivity|]. split; [eexists; reflexivity|]. split; [exact ex_refused|discriminate].
Qed.
(** An application without a password. *)
Definition ex_forgot : env :=
  ex_env (fun _ => ex_cb [mk_entry PAuthId (lit "user"); mk_entry PAuthzId (lit "admin")]) no_vcb no_chan.
Example C115_plain_example : exists s',
  step ex_forgot (ex_at XPlainC) None [] =
    (Err (ECbNoCallback PPassword), lit "admin" ++ nul :: lit "user" ++ [nul], s') /\
  answered PAuthzId (lit "admin") (ex_at XPlainC) s' /\ answered PAuthId (lit "user") (ex_at XPlainC) s'.
Proof.
  eexists. split; [vm_compute; reflexivity|].
  split; (eexists; split; [reflexivity|vm_compute; left; reflexivity]).
Qed.
Example C115_oauth_example :
  out_of (step ex_forgot (ex_at (XXOAuth2C OcInitial)) None []) = lit "user=user" ++ xo_auth /\
  res_of (step ex_forgot (ex_at (XXOAuth2C OcInitial)) None []) = Err (ECbNoCallback POAuthBearerToken) /\
  out_of (step ex_forgot (ex_at (XOAuthBearerC OcInitial)) None []) = lit "n,a=admin," /\
  res_of (step ex_forgot (ex_at (XOAuthBearerC OcInitial)) None []) = Err (ECbNoCallback POAuthBearerToken).
Proof.
  split; [vm_compute; reflexivity|]. split; [vm_compute; reflexivity|]. split; vm_compute; reflexivity.
Qed.
(** A GSSAPI client that requires a layer its context cannot provide. *)
Definition ex_demanding : env :=
  set_apps (ex_env (fun _ => ex_cb [mk_entry PGssService (lit "imap"); mk_entry PHostname (lit "host")]) no_vcb no_chan)
    (fun _ _ _ k => match k with
       | RSatisfy PGssSecurityLayer => CRet (Some (EBoxed 2))
       | _ => ex_cb [mk_entry PGssService (lit "imap"); mk_entry PHostname (lit "host")]
       end) (fun _ _ _ => VRet None) (e_pbkdf2 ex_empty).
Example C115_gssapi_example :
  polite ex_demanding /\
  out_of (step ex_demanding (ex_at (XGssapiC GcInitial)) None []) = lit "tok" /\
  exists x, res_of (step ex_demanding (ex_at (XGssapiC GcInitial)) None []) = Err x.
Proof.
  split; [|split; [vm_compute; reflexivity|eexists; vm_compute; reflexivity]].
  intros tr c k. destruct k as [[]|[]]; first [exact Logic.I | cbn; auto].
Qed.
(** The writer is at fault: a SCRAM server has written five bytes of its first message. *)
Example C115_writer_example : exists x out s',
  step ex_sv (ex_s true) (Some ex_b1) [WAccept 5; WFail 7] = (Err x, out, s') /\ length out = 5 /\
  writer_failed [WAccept 5; WFail 7] (IoOther 7) /\ ~ writes_early (s_mech (ex_s true)) x.
Proof.
  eexists _, _, _. split; [vm_compute; reflexivity|]. split; [reflexivity|].
  split; [left; right; left; reflexivity|intros []].
Qed.
