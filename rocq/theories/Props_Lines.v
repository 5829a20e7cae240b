(** C120: exchanges over base64 lines. *)
From Coq Require Import List.
From Verif Require Import Bytes Base64 Types World CallbackSpec Simple OAuth Scram Gssapi Session Registry Spec_Order Spec_Talk Proof_Talk Spec_Flow Spec_Lines
  ExampleEnv ExampleScram Proof_Lines.
Import ListNotations.

(** C120: an exchange with step64 is the one with step, line by line. *)
Theorem C120_same : forall e l s,
  lines64 e s (map (option_map encode) l)
    = map (fun y => (fst y, encode (snd y))) (dialogue e s (map (fun i => (i, [])) l)) /\
  after64 e s (map (option_map encode) l) = after e s (map (fun i => (i, [])) l).
Proof. exact lines_same. Qed.
Print Assumptions C120_same.

(** C120: lines that are no base64 are refused, wherever they come, and leave no trace. *)
Theorem C120_noise : forall e l x l' x', noisy l x l' x' -> forall s, x = lines64 e s l ->
  x' = lines64 e s l' /\ after64 e s l' = after64 e s l.
Proof. exact lines_noise. Qed.
Print Assumptions C120_noise.

(** C120: what is written is a line of base64, in groups of four characters, and so neither of the
    lines with a meaning of their own, "*" and "=". *)
Theorem C120_shape : forall e s i r out s', step64 e s i = (r, out, s') ->
  Forall line64 out /\ out <> lit "*" /\ out <> lit "=" /\ exists k, length out = 4 * k.
Proof. exact lines_shape. Qed.
Print Assumptions C120_shape.

(** C120: a client and a server that exchange lines finish together: after at most three of them one
    of them finishes or fails; ... *)
Theorem C120_bounded : forall ec es reg m c0 s0 n sd i c s,
  m <> DGssapi -> begun reg SClient m c0 -> begun reg SServer m s0 ->
  talk64 ec es m c0 s0 n sd i c s -> n <= 3.
Proof. exact lines_bounded. Qed.
Print Assumptions C120_bounded.
(** ... if it is with a line, the other one does not answer it; ... *)
Theorem C120_last : forall ec es reg m c0 s0 n sd i c s out x st out2 y,
  m <> DGssapi -> begun reg SClient m c0 -> begun reg SServer m s0 ->
  talk64 ec es m c0 s0 n sd i c s ->
  moves64 ec es sd c s i = (Ok (Finished true), out, x) ->
  replies64 ec es sd c s (Some out) = (Ok st, out2, y) -> st = Finished false.
Proof. exact lines_last. Qed.
Print Assumptions C120_last.
(** ... if it is without, none is written, and the other one finishes as well. *)
Theorem C120_silent : forall ec es reg m c0 s0 n sd i c s out x,
  m <> DGssapi -> begun reg SClient m c0 -> begun reg SServer m s0 ->
  talk64 ec es m c0 s0 n sd i c s ->
  moves64 ec es sd c s i = (Ok (Finished false), out, x) ->
  out = [] /\ exists y, replies64 ec es sd c s None = (Ok (Finished false), [], y).
Proof. exact lines_silent. Qed.
Print Assumptions C120_silent.

(** A SCRAM exchange over lines, to the server's final message. *)
Example C120_example :
  begun [DScram SHA1 true] SClient (DScram SHA1 true) (ex_c Supported) /\
  begun [DScram SHA1 true] SServer (DScram SHA1 true) (ex_s true) /\
  talk64 ex_cl ex_sv (DScram SHA1 true) (ex_c Supported) (ex_s true) 3 SServer (Some (encode ex_b3)) ex_bs3 ex_bs2 /\
  fst (fst (moves64 ex_cl ex_sv SServer ex_bs3 ex_bs2 (Some (encode ex_b3)))) = Ok (Finished true) /\
  fst (fst (replies64 ex_cl ex_sv SServer ex_bs3 ex_bs2 (Some (encode ex_b4)))) = Ok (Finished false).
Proof.
  split; [constructor|]. split; [constructor|]. split.
  - eapply talk64_client; [eapply talk64_server; [eapply talk64_client; [apply talk64_start|]|]|];
      [exact (Proof_Session.step64_none _ _ _ _ _ ex_brun1)|exact (Proof_Session.step64_encoded _ _ _ _ _ _ ex_brun2)
      |exact (Proof_Session.step64_encoded _ _ _ _ _ _ ex_brun3)].
  - split; vm_compute; reflexivity.
Qed.
(** XOAUTH2: a server that is content finishes without a line. *)
Example C120_silent_example :
  let ec := ex_env (fun _ => ex_cb [mk_entry PAuthId (lit "user"); mk_entry POAuthBearerToken (lit "t")]) no_vcb no_chan in
  let es := ex_env (fun _ => ex_cb [mk_entry PXOAuth2Validate None]) no_vcb no_chan in
  exists i c s, talk64 ec es DXOAuth2 (ex_at (XXOAuth2C OcInitial)) (ex_at (XXOAuth2S OsInitial)) 1 SServer i c s /\
    fst (moves64 ec es SServer c s i) = (Ok (Finished false), []).
Proof.
  do 3 eexists. split.
  - eapply talk64_client; [apply talk64_start|vm_compute; reflexivity].
  - vm_compute. reflexivity.
Qed.
(** A PLAIN server that is first sent "*" and "YQ". *)
Example C120_noise_example :
  let e := ex_env (fun _ => ex_cb []) (fun _ => VFinalize 0 (lit "user") (VRet None)) no_chan in
  let l := [Some (encode (lit "admin" ++ [nul] ++ lit "user" ++ [nul] ++ lit "secret"))] in
  let x := lines64 e (ex_at XPlainS) l in
  map fst x = [Ok (Finished false)] /\
  noisy l x (Some (lit "*") :: Some (lit "YQ") :: l) ((Err EBase64, []) :: (Err EBase64, []) :: x).
Proof.
  cbv zeta. split; [vm_compute; reflexivity|].
  assert (D : forall z, decode z = None -> forall b, z <> encode b).
  { intros z H b ->. rewrite Base64Facts.decode_encode in H. discriminate H. }
  apply noisy_more; [apply D; vm_compute; reflexivity|]. apply noisy_more; [apply D; vm_compute; reflexivity|].
  cbn [lines64]. destruct (step64 _ _ _) as [[r out] s']. apply noisy_same. constructor.
Qed.
