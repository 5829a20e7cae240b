(** Property theorems about errors of the application. *)
From Verif Require Import Bytes Base64 Types World CallbackSpec Simple OAuth ScramParser Scram
  Gssapi Session Spec_Abort ExampleEnv ExampleScram Proof_Abort.

(** C91: an error with which the application answers to a request, to an announcement or to a
    validation is what the step returns, and nothing else happens after it. Missing: the
    SCRAM client telling the application its keys. *)
Theorem C91_aborts_partial : forall e s input script r out s' pre ev post x,
  step e s input script = (r, out, s') ->
  s_trace s' = s_trace s ++ pre ++ ev :: post ->
  fatal e (s_trace s ++ pre) ev x -> ~ offers_keys ev ->
  r = Err x /\ only_calls post.
Proof. exact application_aborts. Qed.
Print Assumptions C91_aborts_partial.

(** C91 for the SCRAM client: if the server's signature is right the exchange finishes,
    whatever the application does when it is told the keys. *)
Theorem C91_keys : forall e s a st i script v64,
  s_mech s = XScramC a (Some (ScServerFirst st)) ->
  server_final_parse i = Ok (SfVerifier v64) -> decode v64 = Some (wf_verifier st) ->
  exists s', step e s (Some i) script = (Ok (Finished false), [], s').
Proof. exact keys_outcome_ignored. Qed.
Print Assumptions C91_keys.

(** The application of ex_cl, whose key store fails. *)
Definition ex_full : env :=
  ex_env (fun r => match r with
                   | RAction _ => CRet (Some (EBoxed 1))
                   | _ => ex_cb [mk_entry PAuthId (lit "user"); mk_entry PAuthzId (lit "admin");
                                 mk_entry PPassword (lit "secret")]
                   end) no_vcb ex_chan.
(** An application whose database is out of reach. *)
Definition ex_down : env :=
  ex_env (fun _ => CRet (Some (EBoxed 2))) (fun _ => VRet (Some (VBoxed 3))) ex_chan.

Example C91_example :
  step ex_full (ex_c ClientNoSupport) None [] = step ex_cl (ex_c ClientNoSupport) None [] /\
  step ex_full ex_ns1 (Some ex_n2) [] = step ex_cl ex_ns1 (Some ex_n2) [] /\
  res_of (step ex_full ex_ns3 (Some ex_n4) []) = Ok (Finished false) /\
  res_of (step ex_down (ex_c ClientNoSupport) None []) = Err (EBoxed 2) /\
  res_of (step ex_down (ex_s true) (Some ex_n1) []) = Err (EBoxed 2) /\
  res_of (step ex_down (ex_at (XXOAuth2C OcWaiting)) (Some (lit "x")) []) = Err (EBoxed 2) /\
  res_of (step ex_down ex_ns2 (Some ex_n3) []) = Err (EValidation (VBoxed 3)) /\
  res_of (step ex_sv ex_ns2 (Some ex_n3) []) = Ok (Finished true).
Proof. repeat (split; [vm_compute; reflexivity|]). vm_compute. reflexivity. Qed.

(** C91 as documented is false. *)
Theorem C91_aborts_refuted : ~ (forall e s input script r out s' pre ev post x,
  step e s input script = (r, out, s') ->
  s_trace s' = s_trace s ++ pre ++ ev :: post ->
  fatal e (s_trace s ++ pre) ev x -> r = Err x).
Proof.
  intros H.
  assert (E : exists c v s', step ex_full ex_ns3 (Some ex_n4) [] = (Ok (Finished false), [], s') /\
     s_trace s' = s_trace ex_ns3 ++ [] ++ [EvAction PScramCachedPassword v c]).
  { do 3 eexists. split; vm_compute; reflexivity. }
  destruct E as [c [v [s' [E T]]]].
  assert (K : Ok (Finished false) = Err (EBoxed 1)); [|discriminate].
  apply (H _ _ _ _ _ _ _ _ _ _ _ E T).
  split; [reflexivity|split; discriminate].
Qed.
Print Assumptions C91_aborts_refuted.
