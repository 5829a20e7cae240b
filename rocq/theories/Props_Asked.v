(** C130: what of an application a session notices. *)
From Coq Require Import List.
From Verif Require Import Bytes Types World CallbackSpec Simple OAuth Scram Gssapi Session Registry Spec_Session Spec_History
  Spec_Simple ExampleEnv ExampleScram Custom Spec_Docs Spec_Flow Spec_Asked Proof_Asked.
Import ListNotations.

(** C130: an exchange is the same with every application that does the same about what it was asked,
    told and shown in it; what the applications would have done about anything else makes no
    difference to the messages, the results and the state in the end. *)
Theorem C130_dialogue : forall e cb vcb chan l s evs,
  s_trace (after e s l) = s_trace s ++ evs -> concur e (another e cb vcb chan) (s_trace s) evs ->
  dialogue (another e cb vcb chan) s l = dialogue e s l /\ after (another e cb vcb chan) s l = after e s l.
Proof. exact asked_dialogue. Qed.
Print Assumptions C130_dialogue.

(** C130: so it depends on nothing but the answers to requests documented for the mechanism, what is
    done about its announcements, the validation callback if it is the server side of a mechanism that
    validates, and the channel binding data if it is SCRAM. *)
Theorem C130_kinds : forall e cb vcb chan s l,
  (forall q k, requests (s_mech s) q k -> forall tr c,
     same_reply q (e_cb e tr (e_sd e) c (RSatisfy q)) (cb tr (e_sd e) c (RSatisfy q))) ->
  (forall q k, acts (s_mech s) q k -> forall tr c,
     same_taking q (e_cb e tr (e_sd e) c (RAction q)) (cb tr (e_sd e) c (RAction q))) ->
  (forall k, answered_by (s_mech s) k -> forall tr c,
     same_verdict (e_vtag e) (e_vcb e tr (e_sd e) c) (vcb tr (e_sd e) c)) ->
  (binds_channel (s_mech s) -> forall name, chan name = e_chan e name) ->
  dialogue (another e cb vcb chan) s l = dialogue e s l /\ after (another e cb vcb chan) s l = after e s l.
Proof. exact asked_kinds. Qed.
Print Assumptions C130_kinds.

(** C130: for an application that offers a list of values, only the first value for each of the
    documented properties matters, and in which order they come and what else is among them does not. *)
Theorem C130_credentials : forall e vals vals' s l, e_cb e = (fun _ _ _ _ => offers vals) ->
  (forall q k, requests (s_mech s) q k -> first_for q vals = first_for q vals') ->
  let e' := another e (fun _ _ _ _ => offers vals') (e_vcb e) (e_chan e) in
  dialogue e' s l = dialogue e s l /\ after e' s l = after e s l.
Proof. exact asked_credentials. Qed.
Print Assumptions C130_credentials.

(** C130: encoding and decoding do not depend on the application at all. *)
Theorem C130_transfers : forall e cb vcb chan s input script,
  session_encode (another e cb vcb chan) s input script = session_encode e s input script /\
  session_decode (another e cb vcb chan) s input script = session_decode e s input script.
Proof. exact asked_transfers. Qed.
Print Assumptions C130_transfers.

(** C130: the same for a step of a mechanism of another crate. *)
Theorem C130_custom : forall T e cb vcb chan (m : custom T) s input script r out s' evs,
  cstep e m s input script = (r, out, s') -> cs_trace s' = cs_trace s ++ evs ->
  concur e (another e cb vcb chan) (cs_trace s) evs ->
  cstep (another e cb vcb chan) m s input script = (r, out, s').
Proof. exact @asked_custom. Qed.
Print Assumptions C130_custom.

Ltac replies :=
  cbn [ex_cb mk_entry];
  first [ apply sr_ret
        | apply sr_satisfy; intros ?; replies
        | eapply sr_skip; [constructor; discriminate|]; replies
        | eapply sr_skip'; [constructor; discriminate|]; replies ].

(** The first step of LOGIN does not ask for the password, nor for a token; the second one does. *)
Definition ex_one : env :=
  ex_env (fun _ => ex_cb [mk_entry PAuthId (lit "user"); mk_entry PPassword (lit "one")]) no_vcb no_chan.
Definition ex_two : env :=
  another ex_one (fun _ _ _ _ => ex_cb [mk_entry PPassword (lit "two"); mk_entry POAuthBearerToken (lit "t");
    mk_entry PAuthId (lit "user")]) (fun _ _ _ => VRet None) ex_chan.
Example C130_example :
  let s := ex_at (XLoginC LcAuthid) in let l := [(Some (lit "User Name"), [])] in
  (exists evs, s_trace (after ex_one s l) = s_trace s ++ evs /\ evs <> [] /\ concur ex_one ex_two (s_trace s) evs) /\
  dialogue ex_one s l = [(Ok Running, lit "user")] /\
  dialogue ex_one (after ex_one s l) l = [(Ok (Finished true), lit "one")] /\
  dialogue ex_two (after ex_one s l) l = [(Ok (Finished true), lit "two")].
Proof.
  cbv zeta. split; [|repeat split; vm_compute; reflexivity].
  eexists. split; [vm_compute; reflexivity|]. split; [discriminate|].
  cbn [concur alike]. split; [|split; exact Logic.I].
  unfold ex_one, ex_two, another, ex_env. cbn [e_cb]. replies.
Qed.
(** Anonymous: anything but the token may differ. *)
Definition ex_token : env :=
  ex_env (fun _ => ex_cb [mk_entry PAnonymousToken (lit "me")]) no_vcb no_chan.
Definition ex_more : callback_of := fun _ _ _ _ =>
  ex_cb [mk_entry PAuthId (lit "user"); mk_entry PAnonymousToken (lit "me"); mk_entry PPassword (lit "one")].
Example C130_example_kinds :
  (forall q k, requests XAnonymousC q k -> forall tr c,
     same_reply q (e_cb ex_token tr (e_sd ex_token) c (RSatisfy q)) (ex_more tr (e_sd ex_token) c (RSatisfy q))) /\
  (forall q k, ~ acts XAnonymousC q k) /\ (forall k, ~ answered_by XAnonymousC k) /\ ~ binds_channel XAnonymousC /\
  fst (step ex_token (ex_at XAnonymousC) None []) = (Ok (Finished true), lit "me").
Proof.
  split; [|split; [|split; [|split; [|vm_compute; reflexivity]]]].
  - intros q k H tr c. inversion H; subst. unfold ex_token, ex_env, ex_more. cbn [e_cb]. replies.
  - intros q k H. inversion H.
  - intros k H. inversion H.
  - intros [].
Qed.
Example C130_example_custom :
  let m : custom unit := fun _ => GNeed PAuthId empty_provider (fun name : bytes => GDone (Ok name))
    (fun r => match r with inr (Some name) => GWriteAll name (fun _ => GDone (Ok Running)) | _ => GDone (Ok Running) end) in
  let s := mk_csession tt [] 0 None in
  exists evs s', cstep ex_one m s None [] = (Ok Running, lit "user", s') /\ cs_trace s' = evs /\ evs <> [] /\
    concur ex_one ex_two [] evs.
Proof.
  cbv zeta. do 2 eexists. split; [vm_compute; reflexivity|]. split; [reflexivity|]. split; [discriminate|].
  cbn [cs_trace concur alike]. split; [|split; exact Logic.I].
  unfold ex_one, ex_two, another, ex_env. cbn [e_cb]. replies.
Qed.
(** PLAIN, with the values in another order, a second password, and a token. *)
Example C130_example_credentials :
  let vals := [mk_entry PAuthId (lit "user"); mk_entry PPassword (lit "secret")] in
  let vals' := [mk_entry POAuthBearerToken (lit "t"); mk_entry PPassword (lit "secret");
                mk_entry PPassword (lit "other"); mk_entry PAuthId (lit "user")] in
  let e := ex_env (fun _ => offers vals) no_vcb no_chan in
  e_cb e = (fun _ _ _ _ => offers vals) /\
  (forall q k, requests XPlainC q k -> first_for q vals = first_for q vals') /\
  dialogue e (ex_at XPlainC) [(None, [])] = [(Ok (Finished true), [nul] ++ lit "user" ++ [nul] ++ lit "secret")].
Proof.
  cbv zeta. split; [reflexivity|]. split; [|vm_compute; reflexivity].
  intros q k H. inversion H as [p I| | | | | | | | | | | | | |]; subst.
  destruct I as [<-|[<-|[<-|[]]]]; reflexivity.
Qed.
(** A PLAIN server whose other application asks for the type first, and has a value for another type. *)
Example C130_example_validation :
  let e := ex_env (fun _ => ex_cb []) (fun _ => VFinalize 0 (lit "user") (VRet None)) no_chan in
  let vcb' : validator_of := fun _ _ _ => VIs 0 (fun b : bool =>
    if b then VFinalize 1 (lit "nobody") (VFinalize 0 (lit "user") (VRet None)) else VRet None) in
  (forall k, answered_by XPlainS k -> forall tr c,
     same_verdict (e_vtag e) (e_vcb e tr (e_sd e) c) (vcb' tr (e_sd e) c)) /\
  (forall q k, ~ requests XPlainS q k) /\ (forall q k, ~ acts XPlainS q k) /\ ~ binds_channel XPlainS /\
  s_val (after e (ex_at XPlainS) [(Some ([nul] ++ lit "user" ++ [nul] ++ lit "secret"), [])]) = Some (lit "user").
Proof.
  cbv zeta. split; [|split; [|split; [|split; [|vm_compute; reflexivity]]]].
  - intros k _ tr c. cbn [e_vtag ex_env e_vcb]. eapply sv_skip'; [apply ov_is_not|]. cbn iota.
    eapply sv_skip'; [apply ov_finalize; discriminate|]. apply sv_finalize, sv_ret.
  - intros q k H. inversion H.
  - intros q k H. inversion H.
  - intros [].
Qed.
Example C130_example_transfers :
  fst (session_encode ex_one (ex_at (XGssapiC (GcCompleted (Some ([], true))))) (lit "data") []) = (Ok 4, lit "data") /\
  fst (session_encode ex_two (ex_at (XGssapiC (GcCompleted (Some ([], true))))) (lit "data") []) = (Ok 4, lit "data").
Proof. split; vm_compute; reflexivity. Qed.
