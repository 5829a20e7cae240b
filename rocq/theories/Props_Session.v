(** Property theorems about sessions of any mechanism. *)
From Verif Require Import Bytes Base64 Types World CallbackSpec Simple OAuth Scram Gssapi Session
  Registry Spec_Simple Spec_Registry Spec_Session ExampleEnv Proof_Session Props_Simple.

(** C17: a session without a result, after any calls with any outcome. *)
Theorem C17_first_value : forall e s s' o, s_val s = None -> calls e s s' ->
  exists evs, new_events s s' evs /\
    (first_produced e (s_trace s) evs o <-> fst (validation s') = o).
Proof. exact validation_first. Qed.
Print Assumptions C17_first_value.

(** C17: a result is never replaced. *)
Theorem C17_kept : forall e s s' x, s_val s = Some x -> calls e s s' ->
  fst (validation s') = Some x.
Proof. exact validation_kept. Qed.
Print Assumptions C17_kept.

(** C17: once taken, there is no result until another validate call. *)
Theorem C17_taken : forall e s s' evs, calls e (snd (validation s)) s' ->
  new_events s s' evs -> validations evs = [] -> fst (validation s') = None.
Proof. exact validation_taken. Qed.
Print Assumptions C17_taken.

(** The callback finalises another type, then its value, then a second one. *)
Definition ex_vcb : ctx -> vprog := fun _ =>
  VFinalize 5 (lit "other") (VWith 0 (inr (lit "first"))
    (fun _ => VFinalize 0 (lit "second") (VRet None))).
Definition ex_ve : env := ex_env (fun _ => ex_creds) ex_vcb no_chan.
Example C17_example :
  let s := ex_start XExternalS in
  let s1 := snd (step ex_ve s (Some (lit "bob")) []) in
  let s2 := snd (validation s1) in
  let s3 := snd (step ex_ve s2 (Some [chr 255]) []) in
  let s4 := snd (step ex_ve s3 (Some (lit "eve")) []) in
  fst (validation s1) = Some (lit "first") /\ fst (validation s3) = None /\
  fst (validation s4) = Some (lit "first").
Proof. repeat split; vm_compute; reflexivity. Qed.

(** C18: mechanisms other than GSSAPI never have a security layer. *)
Theorem C18_no_layer : forall reg m e s s',
  started reg m s -> m <> DGssapi -> calls e s s' -> layerless e s'.
Proof. exact no_layer. Qed.
Print Assumptions C18_no_layer.

(** C18: GSSAPI sessions have none until a step returned Finished. *)
Theorem C18_gssapi_before_finish : forall reg m e s s',
  started reg m s -> unfinished e s s' -> layerless e s'.
Proof. exact no_layer_before. Qed.
Print Assumptions C18_gssapi_before_finish.

Example C18_example :
  started [DGssapi] DGssapi (ex_start (XGssapiS GsInitial)) /\
  started [DPlain] DPlain (ex_start XPlainC) /\
  exists s', unfinished ex_e (ex_start (XGssapiS GsInitial)) s' /\
    has_security_layer s' = false /\
    exists s'' b, fst (fst (step ex_e s' (Some [chr 4; chr 0; chr 0; chr 0]) []))
                  = Ok (Finished b) /\
      s'' = snd (step ex_e s' (Some [chr 4; chr 0; chr 0; chr 0]) []) /\
      has_security_layer s'' = true.
Proof.
  split; [split; [right; left; reflexivity|reflexivity]|].
  split; [split; [left; reflexivity|reflexivity]|].
  pose (s1 := snd (step ex_e (ex_start (XGssapiS GsInitial)) (Some (lit "t")) [])).
  pose (s2 := snd (step ex_e s1 None [])).
  exists s2. split.
  { eapply (un_step _ _ s1 _ (Some (lit "t")) [] (Ok Running) (lit "tok"));
      [discriminate|vm_compute; reflexivity|].
    eapply (un_step _ _ s2 _ None [] (Ok Running)); [discriminate|vm_compute; reflexivity|].
    constructor. }
  split; [vm_compute; reflexivity|]. eexists; eexists.
  split; [vm_compute; reflexivity|]. split; [reflexivity|vm_compute; reflexivity].
Qed.

(** C20 as stated is false: a writer that answers Ok(0) in the middle of the SCRAM client's
    message makes the step succeed although the rest was never written. *)
Theorem C20_complete_message_refuted :
  ~ (forall e s input script st out s', polite e ->
       step e s input script = (Ok st, out, s') ->
       step e s input [] = (Ok st, out, s')).
Proof.
  intros H.
  pose (sc := [WAccept 5; WAccept 0]).
  pose (r := step ex_e (ex_start (scram_client_new SHA256 true)) None sc).
  assert (E : r = (Ok Running, snd (fst r), snd r)) by (vm_compute; reflexivity).
  apply (H ex_e _ None sc Running _ _ ex_e_polite) in E.
  vm_compute in E. discriminate E.
Qed.
Print Assumptions C20_complete_message_refuted.

(** C20 for writers that never answer Ok(0) to a non-empty write, and for every writer if the
    mechanism does not use vectored writes: a step that succeeds wrote exactly what it writes
    to a writer that takes everything at once, and ended in the same state. *)
Theorem C20_complete_message_partial : forall e s input script st out s',
  polite e -> no_zero script \/ plain_writes (s_mech s) = true ->
  step e s input script = (Ok st, out, s') -> step e s input [] = (Ok st, out, s').
Proof. exact step_complete. Qed.
Print Assumptions C20_complete_message_partial.

Example C20_example :
  let sc := [WAccept 5; WAccept 1; WAccept 30] in
  no_zero sc /\ polite ex_e /\
  fst (step ex_e (ex_start (scram_client_new SHA256 true)) None sc)
  = (Ok Running, lit "n,a=admin,n=user,r=$+3:AHOV]dkry'/6=DKRY`gn").
Proof. split; [repeat constructor; discriminate|]. split; [exact ex_e_polite|].
  vm_compute. reflexivity. Qed.

(** C21 *)
Theorem C21_step64_encoded : forall e s b r out s', step e s (Some b) [] = (r, out, s') ->
  step64 e s (Some (encode b)) = (r, encode out, s').
Proof. exact step64_encoded. Qed.
Print Assumptions C21_step64_encoded.
Theorem C21_step64_no_input : forall e s r out s', step e s None [] = (r, out, s') ->
  step64 e s None = (r, encode out, s').
Proof. exact step64_none. Qed.
Print Assumptions C21_step64_no_input.
Theorem C21_step64_rejects : forall e s x, (forall b, x <> encode b) ->
  step64 e s (Some x) = (Err EBase64, [], s).
Proof. exact step64_reject. Qed.
Print Assumptions C21_step64_rejects.

Example C21_example :
  fst (step64 ex_e (ex_start XPlainC) None)
  = (Ok (Finished true), lit "YWRtaW4AdXNlcgBzZWNyZXQ=") /\
  fst (step64 ex_e (ex_start XPlainS) (Some (lit "YWRtaW4AdXNlcgBzZWNyZXQ=")))
  = (Ok (Finished false), []) /\
  map (fun x => fst (step64 ex_e (ex_start XPlainS) (Some x)))
    [lit "YWRtaW4AdXNlcgBzZWNyZXQ"; lit "YWRtaW4AdXNlcgBzZWNyZXR="; lit "YQ=="]
  = [(Err EBase64, []); (Err EBase64, []); (Err (EMech (MPlain PlBadFormat)), [])].
Proof. repeat split; vm_compute; reflexivity. Qed.
