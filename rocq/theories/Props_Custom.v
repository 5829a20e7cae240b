(** Property theorems about sessions with mechanisms of other crates. *)
From Verif Require Import Bytes Utf8 Types World CallbackSpec Simple OAuth Session Spec_Simple Spec_Session
  ExampleEnv Custom Spec_Custom Proof_Custom Proof_Coded Props_Simple Props_Session.

(** C104: whatever the mechanism does, the session's result is the first value the
    application's validation callback finalised. *)
Theorem C104_first_value : forall T e (m : custom T) s s' o,
  cs_val s = None -> csteps e m s s' ->
  exists evs, cs_trace s' = cs_trace s ++ evs /\
    (first_produced e (cs_trace s) evs o <-> fst (cvalidation s') = o).
Proof. exact @custom_first. Qed.
Print Assumptions C104_first_value.

(** C104: no mechanism can replace a result or bring a taken one back. *)
Theorem C104_kept : forall T e (m : custom T) s s' x,
  cs_val s = Some x -> csteps e m s s' -> fst (cvalidation s') = Some x.
Proof. exact @custom_kept. Qed.
Print Assumptions C104_kept.
Theorem C104_taken : forall T e (m : custom T) s s' evs,
  csteps e m (snd (cvalidation s)) s' -> cs_trace s' = cs_trace s ++ evs ->
  validations evs = [] -> fst (cvalidation s') = None.
Proof. exact @custom_taken. Qed.
Print Assumptions C104_taken.

(** C104: at every moment the mechanism was given at most one value of a property for each
    time the application was asked for it. *)
Theorem C104_answers : forall T e (m : custom T) s s', csteps e m s s' ->
  exists evs, cs_trace s' = cs_trace s ++ evs /\
    forall q a b, evs = a ++ b -> length (answers q a) <= requests q a.
Proof. exact @custom_answers. Qed.
Print Assumptions C104_answers.

(** C104: a step panics only if the mechanism's own code does. *)
Theorem C104_no_panic : forall T e (m : custom T) s input script,
  panic_free (m input) -> fst (fst (cstep e m s input script)) <> Panic.
Proof. exact @custom_calm. Qed.
Print Assumptions C104_no_panic.

(** C104: the error that ends callbacks early never reaches the protocol, unless the
    mechanism got hold of it elsewhere. *)
Theorem C104_no_early_return : forall T e (m : custom T) s input script,
  passes_on ECbEarlyReturn (m input) ->
  fst (fst (cstep e m s input script)) <> Err ECbEarlyReturn.
Proof. exact @custom_early. Qed.
Print Assumptions C104_no_early_return.

(** C104: these mechanisms are not special: for each of them there is code of this kind that does the
    same in every step of every session. SCRAM and GSSAPI, which need additional state, are
    in C104_every. *)
Theorem C104_builtin : forall e,
  (exists p : custom unit, stands_for e p (fun _ => XPlainC)) /\
  (exists p : custom unit, stands_for e p (fun _ => XPlainS)) /\
  (exists p : custom login_cst, stands_for e p XLoginC) /\
  (exists p : custom login_sst, stands_for e p XLoginS) /\
  (exists p : custom unit, stands_for e p (fun _ => XExternalC)) /\
  (exists p : custom unit, stands_for e p (fun _ => XExternalS)) /\
  (exists p : custom unit, stands_for e p (fun _ => XAnonymousC)) /\
  (exists p : custom unit, stands_for e p (fun _ => XAnonymousS)) /\
  (exists p : custom oauth_cst, stands_for e p XXOAuth2C) /\
  (exists p : custom oauth_sst, stands_for e p XXOAuth2S) /\
  (exists p : custom oauth_cst, stands_for e p XOAuthBearerC) /\
  (exists p : custom oauth_sst, stands_for e p XOAuthBearerS).
Proof. exact builtin_coded. Qed.
Print Assumptions C104_builtin.

(** C104: every built-in mechanism in every state is such code. *)
Theorem C104_every : forall e m, exists T (wrap : T -> mech) (p : custom T),
  (exists t, wrap t = m) /\ stands_for e p wrap.
Proof. exact every_coded. Qed.
Print Assumptions C104_every.

(** A server that asks for a stored password twice, the second time while handling the
    first answer, writes part of a message with one [write] call and then validates. The
    callback satisfies every request three times and ignores what it is told. *)
Definition ex_custom : custom bool := fun input =>
  GNeed PPassword empty_provider (fun p =>
      GNeed PPassword empty_provider (fun p' => GDone (Ok (p ++ p')))
        (fun r => match r with inr (Some x) => GDone (Ok x) | _ => GDone (Ok p) end))
    (fun r => GGet (fun b => GSet (negb b) (
       GWrite (unwrap_or_empty input) (fun n => match n with
         | inr (Some k) => GValidate empty_provider (fun v => match v with
             | Some x => GDone (Err x)
             | None => GDone (Ok (if b then Finished true else Running)) end)
         | _ => GDone (Err EInputDataRequired) end)))).
Definition ex_triple (k : reqkind) : cbprog :=
  CSatisfy PPassword (lit "one") (fun _ => CSatisfy PPassword (lit "two") (fun _ =>
    CSatisfyWith PPassword (inr (lit "three")) (fun x => CRet x))).
Definition ex_cu : env := ex_env ex_triple ex_vcb no_chan.
Definition ex_cu0 : csession bool := mk_csession false [] 0 None.
Definition ex_cu1 : csession bool :=
  Eval vm_compute in snd (cstep ex_cu ex_custom ex_cu0 (Some (lit "abc")) [WAccept 2]).
Definition ex_cu2 : csession bool :=
  Eval vm_compute in snd (cstep ex_cu ex_custom ex_cu1 None []).
Lemma ex_cu_steps : csteps ex_cu ex_custom ex_cu0 ex_cu2.
Proof.
  eapply cs_step with (s1 := ex_cu1) (input := Some (lit "abc")) (script := [WAccept 2]).
  { vm_compute. reflexivity. }
  eapply cs_step with (s1 := ex_cu2) (input := None) (script := []).
  { vm_compute. reflexivity. }
  apply cs_nil.
Qed.
Example C104_example :
  fst (cstep ex_cu ex_custom ex_cu0 (Some (lit "abc")) [WAccept 2]) = (Ok Running, lit "ab") /\
  fst (cstep ex_cu ex_custom ex_cu1 None []) = (Ok (Finished true), []) /\
  cs_val ex_cu0 = None /\ cs_val ex_cu1 = Some (lit "first") /\
  fst (cvalidation ex_cu2) = Some (lit "first") /\
  requests PPassword (cs_trace ex_cu2) = 4 /\
  answers PPassword (cs_trace ex_cu2) = [lit "one"; lit "one"; lit "one"; lit "one"].
Proof. vm_compute. repeat split. Qed.
Example C104_example_code : forall input,
  panic_free (ex_custom input) /\ passes_on ECbEarlyReturn (ex_custom input).
Proof.
  intros input. split; cbn.
  - split.
    + intros v. split; [discriminate|]. intros [x|[y|]]; discriminate.
    + intros _ t [x|[n|]]; try discriminate. intros [v|]; [discriminate|]. destruct t; discriminate.
  - split.
    + intros v. split; [discriminate|]. intros [x|[y|]] _; discriminate.
    + intros _ _ t [x|[n|]]; try discriminate. intros [v|] H; [simpl; congruence|].
      destruct t; discriminate.
Qed.
(** A callback that hands on the error it was given, with a mechanism that returns whatever
    error it is given. *)
Definition ex_relay : custom unit := fun _ =>
  GNeed PPassword empty_provider (fun p => GDone (Ok tt))
    (fun r => match r with inl x => GDone (Err x) | inr _ => GDone (Ok (Finished false)) end).
Example C104_example_relay :
  passes_on ECbEarlyReturn (ex_relay None) /\
  fst (cstep (ex_env (fun _ => CSatisfy PPassword (lit "x") (fun x => CRet x)) no_vcb no_chan)
    ex_relay (mk_csession tt [] 0 None) None []) = (Ok (Finished false), []) /\
  fst (cstep (ex_env (fun _ => CSatisfy PPassword (lit "x") (fun x => CRet (Some EBase64)))
    no_vcb no_chan) ex_relay (mk_csession tt [] 0 None) None []) = (Err EBase64, []).
Proof.
  split; [|split; reflexivity]. cbn. split; [discriminate|].
  intros [x|[y|]] H; try discriminate. intros E. congruence.
Qed.

(** The built-in mechanisms are of this kind, here both sides of ANONYMOUS. *)
Definition ex_anonymous_client : custom unit := fun _ =>
  GNeed PAnonymousToken empty_provider
    (fun token : bytes => GWriteAll token (fun r =>
       GDone (match r with None => Ok tt | Some x => Err x end)))
    (fun r => GDone (match r with inl x => Err x | inr _ => Ok (Finished true) end)).
Definition ex_anonymous_server : custom unit := fun input =>
  match from_utf8 (unwrap_or_empty input) with
  | None => GDone (Err (EMech MAnonymousUtf8))
  | Some token => GValidate (this_provider PAnonymousToken token) (fun r =>
      GDone (match r with None => Ok (Finished false) | Some x => Err x end))
  end.
Example C104_example_anonymous : forall e input l w,
  exec e (ex_anonymous_client input) l w = anonymous_client_step e input l w /\
  exec e (ex_anonymous_server input) l w = anonymous_server_step e input l w.
Proof.
  intros e input l w. split.
  - unfold ex_anonymous_client, anonymous_client_step. cbn [exec]. unfold bind at 1, catch at 1.
    unfold bind at 2. rewrite (need_same e PAnonymousToken _ _ (fun token : bytes => write_all token)).
    + destruct (maybe_need_with _ _ _ _ _ _) as [[[a|x|] l1] w1]; reflexivity.
    + intros v l0 w0. unfold bind, catch.
      destruct (write_all v l0 w0) as [[[[]|x|] l1] w1]; reflexivity.
  - unfold ex_anonymous_server, anonymous_server_step.
    destruct (from_utf8 _); [|reflexivity]. cbn [exec]. unfold bind, catch.
    destruct (validate _ _ _ _) as [[[[]|x|] l1] w1]; reflexivity.
Qed.

(** A LOGIN client in its first step, whose writer fails. *)
Example C104_builtin_example :
  let e := ex_env (fun _ => ex_cb [mk_entry PAuthId (lit "user")]) no_vcb no_chan in
  same_session XLoginC (mk_csession LcAuthid [] 0 None) (mk_session (XLoginC LcAuthid) [] 0 None) /\
  fst (step e (mk_session (XLoginC LcAuthid) [] 0 None) None []) = (Ok Running, lit "user") /\
  fst (step e (mk_session (XLoginC LcAuthid) [] 0 None) None [WFail 3]) = (Err (EIo (IoOther 3)), []).
Proof. repeat split; reflexivity. Qed.
