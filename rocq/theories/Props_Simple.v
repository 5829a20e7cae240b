(** Property theorems about PLAIN, LOGIN, EXTERNAL and ANONYMOUS. *)
From Verif Require Import Bytes Utf8 Types World CallbackSpec Simple OAuth Scram Gssapi Session
  Spec_Simple ExampleEnv Proof_Simple.

Definition ex_creds : cbprog :=
  ex_cb [mk_entry PAuthzId (lit "admin"); mk_entry PAuthId (lit "user");
         mk_entry PPassword (lit "secret"); mk_entry PAnonymousToken (lit "trace")].
Definition ex_e : env := ex_env (fun _ => ex_creds) no_vcb no_chan.
Definition ex_start (m : mech) : session := mk_session m [] 0 None.

Lemma ex_e_polite : polite ex_e.
Proof. intros tr c k. simpl. repeat split. Qed.

(** C23: what a PLAIN client writes, for error-propagating callbacks and any writer. *)
Theorem C23_plain_message : forall e s input script st out s',
  s_mech s = XPlainC -> polite e ->
  step e s input script = (Ok st, out, s') ->
  exists evs z a p, new_events s s' evs /\ st = Finished true /\
    out = plain_message z a p /\ a <> [] /\ p <> [] /\
    nul_free z /\ nul_free a /\ nul_free p /\
    answers PAuthId evs = [a] /\ answers PPassword evs = [p] /\
    (answers PAuthzId evs = [z] \/ (answers PAuthzId evs = [] /\ z = [])).
Proof. exact plain_client_polite. Qed.
Print Assumptions C23_plain_message.

(** C23: for arbitrary callbacks. One that swallows the error of a failing write of the
    optional authzid makes the client go on with the part that was written. *)
Theorem C23_plain_message_any_callback : forall e s input script st out s',
  s_mech s = XPlainC ->
  step e s input script = (Ok st, out, s') ->
  exists evs z a p, new_events s s' evs /\ st = Finished true /\
    out = plain_message z a p /\ a <> [] /\ p <> [] /\
    nul_free z /\ nul_free a /\ nul_free p /\
    answers PAuthId evs = [a] /\ answers PPassword evs = [p] /\
    ((answers PAuthzId evs = [] /\ z = []) \/
     exists rest : bytes, answers PAuthzId evs = [z ++ rest]).
Proof. exact plain_client_any. Qed.
Print Assumptions C23_plain_message_any_callback.

(** C23: bad values are refused with an error. *)
Theorem C23_plain_refuses : forall e s input script r out s' evs,
  s_mech s = XPlainC -> step e s input script = (r, out, s') -> new_events s s' evs ->
  (exists a : bytes, In a (answers PAuthId evs) /\ (a = [] \/ In nul a)) \/
  (exists p : bytes, In p (answers PPassword evs) /\ (p = [] \/ In nul p)) \/
  (polite e /\ exists z : bytes, In z (answers PAuthzId evs) /\ In nul z) ->
  exists x, r = Err x.
Proof. exact plain_client_refuses. Qed.
Print Assumptions C23_plain_refuses.

(** C23: good values are sent, if the writer takes everything. *)
Theorem C23_plain_complete : forall e s input o a p,
  s_mech s = XPlainC ->
  provides e PAuthId a -> provides e PPassword p -> answers_with e PAuthzId o ->
  a <> [] -> p <> [] -> nul_free a -> nul_free p -> (forall z : bytes, o = Some z -> nul_free z) ->
  exists s', step e s input []
    = (Ok (Finished true), plain_message (match o with Some z => z | None => [] end) a p, s').
Proof. exact plain_client_complete. Qed.
Print Assumptions C23_plain_complete.

Example C23_example :
  polite ex_e /\
  provides ex_e PAuthId (lit "user") /\ provides ex_e PPassword (lit "secret") /\
  answers_with ex_e PAuthzId (Some (lit "admin")) /\
  fst (step ex_e (ex_start XPlainC) None [WAccept 3; WInterrupt; WAccept 1])
  = (Ok (Finished true), lit "admin" ++ nul :: lit "user" ++ nul :: lit "secret") /\
  let s' := step (ex_env (fun _ => ex_cb [mk_entry PAuthId [nul]]) no_vcb no_chan)
              (ex_start XPlainC) None [] in
  fst (fst s') = Err (EMech (MPlain PlContainsNull)) /\
  answers PAuthId (s_trace (snd s')) = [[nul]].
Proof.
  split; [exact ex_e_polite|]. do 3 (split; [intros tr c; simpl; repeat split|]).
  repeat split; vm_compute; reflexivity.
Qed.

(** C24 *)
Theorem C24_plain_roundtrip :
  forall ec sc input script st msg sc' es ss script2 r out ss',
  s_mech sc = XPlainC -> polite ec ->
  step ec sc input script = (Ok st, msg, sc') ->
  s_mech ss = XPlainS ->
  step es ss (Some msg) script2 = (r, out, ss') ->
  exists evs z a p, new_events sc sc' evs /\
    answers PAuthId evs = [a] /\ answers PPassword evs = [p] /\
    (answers PAuthzId evs = [z] \/ (answers PAuthzId evs = [] /\ z = [])) /\
    out = [] /\
    (utf8_valid z = true -> utf8_valid a = true ->
     (exists a' p' c, prepared es a a' /\ prepared_password es p p' /\
        new_events ss ss' [EvValidate c] /\ offers_plain c z a' p' /\ validated r) \/
     ((~ exists a' p', prepared es a a' /\ prepared_password es p p') /\
        new_events ss ss' [] /\ exists x, r = Err (EMech (MPlain x)))).
Proof. exact plain_roundtrip. Qed.
Print Assumptions C24_plain_roundtrip.

Example C24_example :
  let c := step ex_e (ex_start XPlainC) None [] in
  let s := step ex_e (ex_start XPlainS) (Some (snd (fst c))) [] in
  fst (fst c) = Ok (Finished true) /\ fst s = (Ok (Finished false), []) /\
  s_trace (snd s) = [EvValidate (plain_provider (lit "user") (lit "admin") (lit "secret"))].
Proof. repeat split; vm_compute; reflexivity. Qed.

(** C25 *)
Theorem C25_plain_server : forall e s msg script r out s',
  s_mech s = XPlainS -> step e s (Some msg) script = (r, out, s') ->
  out = [] /\
  ((exists z a p c, plain_accepts e msg z a p /\ new_events s s' [EvValidate c] /\
      offers_plain c z a p /\ validated r) \/
   ((forall z a p, ~ plain_accepts e msg z a p) /\ new_events s s' [] /\
      exists x, r = Err (EMech (MPlain x)))).
Proof. exact plain_server_exact. Qed.
Print Assumptions C25_plain_server.

(** C25: no message at all. *)
Theorem C25_plain_server_no_input : forall e s script,
  s_mech s = XPlainS -> step e s None script = (Err EInputDataRequired, [], s).
Proof. exact plain_server_needs_input. Qed.
Print Assumptions C25_plain_server_no_input.

Example C25_example :
  let bad := [lit "abc"; [nul; nul; nul; nul]; lit "a" ++ nul :: lit "b" ++ nul :: [];
              lit "a" ++ nul :: lit "b" ++ nul :: lit "c" ++ [nul]] in
  map (fun m => fst (step ex_e (ex_start XPlainS) (Some m) [])) bad
  = [(Err (EMech (MPlain PlBadFormat)), []); (Err (EMech (MPlain PlBadFormat)), []);
     (Err (EMech (MPlain PlEmpty)), []); (Err (EMech (MPlain PlBadFormat)), [])] /\
  fst (fst (step ex_e (ex_start XPlainS) (Some (nul :: lit "b" ++ nul :: lit "c")) []))
    = Ok (Finished false).
Proof. split; vm_compute; reflexivity. Qed.

(** C26: the exchange, with any number of step calls without data in between. *)
Theorem C26_login_exchange : forall ec es sc ss a p,
  s_mech sc = XLoginC LcAuthid -> s_mech ss = XLoginS LsNew ->
  provides ec PAuthId a -> provides ec PPassword p -> utf8_valid a = true ->
  forall i0 i1 i2,
  exists s1 s2 c1 c2,
    step es ss i0 [] = (Ok Running, lit "User Name" ++ [nul], s1) /\
    step ec sc i1 [] = (Ok Running, a, c1) /\
    (forall s1', idle es s1 s1' ->
       step es s1' (Some a) [] = (Ok Running, lit "Password" ++ [nul], s2)) /\
    step ec c1 i2 [] = (Ok (Finished true), p, c2) /\
    (forall s2' r out s3, idle es s2 s2' -> step es s2' (Some p) [] = (r, out, s3) ->
       exists c, new_events ss s3 [EvValidate c] /\ offers_login c a p /\
         out = [] /\ validated r /\
         (r = Ok (Finished false) -> forall i script,
            step es s3 i script = (Err EMechanismDone, [], s3))) /\
    (forall i script, step ec c2 i script = (Err EMechanismDone, [], c2)).
Proof. exact login_exchange. Qed.
Print Assumptions C26_login_exchange.

(** C26: the server may be called without data any time; nothing happens. *)
Theorem C26_login_waits : forall e tr n v st script,
  st = LsUser \/ (exists u, st = LsPass u) ->
  step e (mk_session (XLoginS st) tr n v) None script
  = (Err EInputDataRequired, [], mk_session (XLoginS st) tr n v).
Proof. exact login_server_wait. Qed.
Print Assumptions C26_login_waits.

(** C26: a user name that is not text is refused. *)
Theorem C26_login_bad_name : forall e tr n v x script,
  utf8_valid x = false ->
  step e (mk_session (XLoginS LsUser) tr n v) (Some x) script
  = (Err (EMech MLoginUtf8), [], mk_session (XLoginS LsUser) tr n v).
Proof. exact login_bad_utf8. Qed.
Print Assumptions C26_login_bad_name.

Example C26_example :
  provides ex_e PAuthId (lit "user") /\ provides ex_e PPassword (lit "secret") /\
  utf8_valid (lit "user") = true /\ utf8_valid [chr 255] = false /\
  idle ex_e (ex_start (XLoginS LsUser)) (ex_start (XLoginS LsUser)).
Proof.
  split; [|split]; [intros tr c; simpl; repeat split..|].
  split; [reflexivity|]. split; [reflexivity|].
  eapply (idle_more _ _ _ _ []); [reflexivity|]. constructor.
Qed.

(** C27: EXTERNAL, both sides. *)
Theorem C27_external : forall ec es sc ss o,
  s_mech sc = XExternalC -> s_mech ss = XExternalS -> answers_with ec PAuthzId o ->
  forall i, exists sc', let token := match o with Some v => v | None => [] end in
    step ec sc i [] = (Ok (Finished true), token, sc') /\
    (utf8_valid token = true -> forall script r out ss',
       step es ss (Some token) script = (r, out, ss') ->
       out = [] /\ exists c, new_events ss ss' [EvValidate c] /\
         offers_only c PAuthzId token /\ validated r).
Proof. exact external_exchange. Qed.
Print Assumptions C27_external.

(** C27: ANONYMOUS, both sides. *)
Theorem C27_anonymous : forall ec es sc ss o,
  s_mech sc = XAnonymousC -> s_mech ss = XAnonymousS -> answers_with ec PAnonymousToken o ->
  forall i, exists sc', let token := match o with Some v => v | None => [] end in
    step ec sc i [] = (Ok (Finished true), token, sc') /\
    (utf8_valid token = true -> forall script r out ss',
       step es ss (Some token) script = (r, out, ss') ->
       out = [] /\ exists c, new_events ss ss' [EvValidate c] /\
         offers_only c PAnonymousToken token /\ validated r).
Proof. exact anonymous_exchange. Qed.
Print Assumptions C27_anonymous.

(** C27: the clients, for every error-propagating callback and every writer. *)
Theorem C27_external_client : forall e s input script st out s',
  s_mech s = XExternalC -> polite e -> step e s input script = (Ok st, out, s') ->
  st = Finished true /\ exists evs, new_events s s' evs /\
    (answers PAuthzId evs = [out] \/ (answers PAuthzId evs = [] /\ out = [])).
Proof. exact external_client_ok. Qed.
Print Assumptions C27_external_client.
Theorem C27_anonymous_client : forall e s input script st out s',
  s_mech s = XAnonymousC -> polite e -> step e s input script = (Ok st, out, s') ->
  st = Finished true /\ exists evs, new_events s s' evs /\
    (answers PAnonymousToken evs = [out] \/ (answers PAnonymousToken evs = [] /\ out = [])).
Proof. exact anonymous_client_ok. Qed.
Print Assumptions C27_anonymous_client.

(** C27: the servers on arbitrary input; no input counts as the empty token. *)
Theorem C27_external_server : forall e s input script r out s',
  s_mech s = XExternalS -> step e s input script = (r, out, s') ->
  out = [] /\
  if utf8_valid (unwrap_or_empty input)
  then exists c, new_events s s' [EvValidate c] /\
         offers_only c PAuthzId (unwrap_or_empty input) /\ validated r
  else new_events s s' [] /\ r = Err (EMech MExternalUtf8).
Proof. exact external_server_exact. Qed.
Print Assumptions C27_external_server.
Theorem C27_anonymous_server : forall e s input script r out s',
  s_mech s = XAnonymousS -> step e s input script = (r, out, s') ->
  out = [] /\
  if utf8_valid (unwrap_or_empty input)
  then exists c, new_events s s' [EvValidate c] /\
         offers_only c PAnonymousToken (unwrap_or_empty input) /\ validated r
  else new_events s s' [] /\ r = Err (EMech MAnonymousUtf8).
Proof. exact anonymous_server_exact. Qed.
Print Assumptions C27_anonymous_server.

Example C27_example :
  answers_with ex_e PAuthzId (Some (lit "admin")) /\
  answers_with ex_e PAnonymousToken (Some (lit "trace")) /\
  answers_with (ex_env (fun _ => ex_cb []) no_vcb no_chan) PAuthzId None /\
  fst (fst (step ex_e (ex_start XExternalS) (Some [chr 255]) [])) = Err (EMech MExternalUtf8) /\
  fst (fst (step ex_e (ex_start XAnonymousS) None [])) = Ok (Finished false).
Proof.
  split; [|split; [|split]]; [intros tr c; simpl; repeat split..|split; reflexivity].
  left; reflexivity.
Qed.
