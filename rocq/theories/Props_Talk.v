(** C70 and C71. *)
From Coq Require Import List NArith.
From Verif Require Import Bytes Types World CallbackSpec Simple OAuth Scram Gssapi Session Registry
  Spec_Simple Spec_Registry Spec_Order Spec_History Spec_Talk ExampleEnv ExampleScram Proof_Talk
  Props_Gssapi.
Import ListNotations.

(** C70, mechanism.rs:41-49: without data, a mechanism that waits for some never returns Running.
    Missing: LOGIN and GSSAPI. *)
Theorem C70_empty_partial : forall e reg sd m s input script out s',
  awaits e reg sd m s -> ~ is_login m -> m <> DGssapi -> no_data input ->
  step e s input script <> (Ok Running, out, s').
Proof. exact empty_never_runs. Qed.
Print Assumptions C70_empty_partial.

(** C70: SCRAM, which authenticates the server, always reports an error in that case. *)
Theorem C70_mutual : forall e reg sd a plus s input script st out s',
  awaits e reg sd (DScram a plus) s -> no_data input ->
  step e s input script <> (Ok st, out, s').
Proof. exact scram_needs_data. Qed.
Print Assumptions C70_mutual.

(** C70, session.rs:88-92: the last step, made without input after the other side declared the
    exchange complete, writes nothing and either finishes or fails. Missing: LOGIN and GSSAPI. *)
Theorem C70_final_partial : forall e reg sd m s script r out s',
  underway e reg sd m s -> ~ is_login m -> m <> DGssapi ->
  step e s None script = (r, out, s') ->
  out = [] /\ (r = Ok (Finished false) \/ r = Err EInputDataRequired).
Proof. exact final_step_silent. Qed.
Print Assumptions C70_final_partial.

Definition ex_login : env :=
  ex_env (fun _ => ex_cb [mk_entry PAuthId (lit "user"); mk_entry PPassword (lit "secret")])
    no_vcb no_chan.

(** C70, refuted: the LOGIN client goes ahead without having been asked ... *)
Theorem C70_empty_refuted : ~ (forall e reg sd m s input script out s',
  awaits e reg sd m s -> no_data input -> step e s input script <> (Ok Running, out, s')).
Proof.
  intros H.
  assert (E : exists s', step ex_login (ex_at (XLoginC LcAuthid)) None []
                         = (Ok Running, lit "user", s')).
  { eexists. vm_compute. reflexivity. }
  destruct E as [s' E].
  refine (H _ [] SClient DLogin _ _ _ _ _ (or_introl (conj _ _)) (or_introl eq_refl) E).
  - exact fc_login.
  - discriminate.
Qed.
Print Assumptions C70_empty_refuted.

(** ... and gives away the password if the server declares the exchange complete. *)
Theorem C70_final_refuted : ~ (forall e reg sd m s script r out s',
  underway e reg sd m s -> step e s None script = (r, out, s') ->
  out = [] /\ (r = Ok (Finished false) \/ r = Err EInputDataRequired)).
Proof.
  intros H.
  assert (E : exists s1 s2,
    step ex_login (ex_at (XLoginC LcAuthid)) (Some (lit "User Name")) []
      = (Ok Running, lit "user", s1) /\
    step ex_login s1 None [] = (Ok (Finished true), lit "secret", s2)).
  { do 2 eexists. split; vm_compute; reflexivity. }
  destruct E as [s1 [s2 [E1 E2]]].
  destruct (H _ [] SClient DLogin _ _ _ _ _
    (ex_intro _ (ex_at (XLoginC LcAuthid)) (ex_intro _ _ (ex_intro _ _ (ex_intro _ _ (ex_intro _ _
      (conj fc_login (conj (ongoing_start _ _) E1))))))) E2) as [K _].
  discriminate K.
Qed.
Print Assumptions C70_final_refuted.

(** An empty user name keeps the LOGIN server going, no input at all a GSSAPI server that has sent
    its token. *)
Example C70_empty_example :
  res_of (step ex_login (ex_at (XLoginS LsUser)) (Some []) []) = Ok Running /\
  (let e := ex_gss 1 ex_all (chr 7) in
   let s1 := ses_of (step e (ex_at (XGssapiS GsInitial)) (Some (lit "t")) []) in
   res_of (step e s1 None []) = Ok Running).
Proof. vm_compute. split; reflexivity. Qed.

(** A SCRAM client waiting for the server's final message, and its last step. *)
Example C70_final_example :
  underway ex_cl [] SClient (DScram SHA1 true) ex_bs3 /\ no_data None /\ no_data (Some []) /\
  awaits ex_cl [] SClient (DScram SHA1 true) ex_bs3 /\
  awaits ex_sv [] SServer DPlain (ex_at XPlainS) /\
  res_of (step ex_cl ex_bs3 None []) = Err EInputDataRequired /\
  res_of (step ex_cl (ex_at (XXOAuth2C OcWaiting)) None []) = Ok (Finished false).
Proof.
  assert (U : underway ex_cl [] SClient (DScram SHA1 true) ex_bs3).
  { exists (ex_c Supported), ex_bs1. do 3 eexists. split; [constructor|].
    split; [eapply ongoing_step; [apply ongoing_start|exact ex_brun1]|exact ex_brun3]. }
  split; [exact U|]. split; [left; reflexivity|]. split; [right; reflexivity|].
  split; [right; exact U|]. split; [left; split; [exact (fs_plain [])|discriminate]|].
  split; vm_compute; reflexivity.
Qed.

(** C71, mechanism.rs:29-33: a client and a server that talk to each other are done after at most
    four messages, whatever their applications do ... *)
Theorem C71_bounded : forall ec es reg m c0 s0 n sd i c s,
  m <> DGssapi -> begun reg SClient m c0 -> begun reg SServer m s0 ->
  talk ec es m c0 s0 n sd i c s -> n <= 3.
Proof. exact talk_bounded. Qed.
Print Assumptions C71_bounded.

(** ... if one of them finishes with a message, the other one does not answer it ... *)
Theorem C71_last : forall ec es reg m c0 s0 n sd i c s script out x script2 st out2 y,
  m <> DGssapi -> begun reg SClient m c0 -> begun reg SServer m s0 ->
  talk ec es m c0 s0 n sd i c s ->
  moves ec es sd c s i script = (Ok (Finished true), out, x) ->
  replies ec es sd c s (Some out) script2 = (Ok st, out2, y) -> st = Finished false.
Proof. exact talk_last_message. Qed.
Print Assumptions C71_last.

(** ... and if one of them finishes without, the other one finishes as well. *)
Theorem C71_silent : forall ec es reg m c0 s0 n sd i c s script out x script2,
  m <> DGssapi -> begun reg SClient m c0 -> begun reg SServer m s0 ->
  talk ec es m c0 s0 n sd i c s ->
  moves ec es sd c s i script = (Ok (Finished false), out, x) ->
  exists y, replies ec es sd c s None script2 = (Ok (Finished false), [], y).
Proof. exact talk_silent_end. Qed.
Print Assumptions C71_silent.

(** C71, session.rs:493-501: in every state of every mechanism, a step that finishes without a
    message has written nothing. *)
Theorem C71_nothing : forall e s input script out s',
  step e s input script = (Ok (Finished false), out, s') -> out = [].
Proof. exact no_message_no_bytes. Qed.
Print Assumptions C71_nothing.

(** A complete SCRAM exchange. *)
Example C71_example :
  begun [DScram SHA1 true] SClient (DScram SHA1 true) (ex_c Supported) /\
  begun [DScram SHA1 true] SServer (DScram SHA1 true) (ex_s true) /\
  talk ex_cl ex_sv (DScram SHA1 true) (ex_c Supported) (ex_s true) 3 SServer (Some ex_b3) ex_bs3 ex_bs2 /\
  res_of (moves ex_cl ex_sv SServer ex_bs3 ex_bs2 (Some ex_b3) []) = Ok (Finished true) /\
  res_of (replies ex_cl ex_sv SServer ex_bs3 ex_bs2 (Some ex_b4) []) = Ok (Finished false).
Proof.
  split; [constructor|]. split; [constructor|]. split.
  - eapply talk_client; [eapply talk_server; [eapply talk_client; [apply talk_start|exact ex_brun1]
      |exact ex_brun2]|exact ex_brun3].
  - split; vm_compute; reflexivity.
Qed.

(** XOAUTH2: a server that is content finishes without a message. *)
Example C71_silent_example :
  let ec := ex_env (fun _ => ex_cb [mk_entry PAuthId (lit "user");
                                    mk_entry POAuthBearerToken (lit "t")]) no_vcb no_chan in
  let es := ex_env (fun _ => ex_cb [mk_entry PXOAuth2Validate None]) no_vcb no_chan in
  exists i c s, talk ec es DXOAuth2 (ex_at (XXOAuth2C OcInitial)) (ex_at (XXOAuth2S OsInitial))
                  1 SServer i c s /\
    res_of (moves ec es SServer c s i []) = Ok (Finished false).
Proof.
  intros ec es. do 3 eexists. split.
  - eapply (talk_client _ _ _ _ _ _ _ _ _ []); [apply talk_start|]. vm_compute. reflexivity.
  - vm_compute. reflexivity.
Qed.
