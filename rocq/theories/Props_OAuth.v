(** Property theorems about XOAUTH2 and OAUTHBEARER. *)
From Coq Require Import Lia.
From Verif Require Import Bytes Utf8 Types World CallbackSpec Simple OAuth Scram Gssapi Session
  Spec_Simple Spec_Callback Spec_OAuth ExampleEnv Proof_OAuth.

Definition ex_oa : env :=
  ex_env (fun _ => ex_cb [mk_entry PAuthId (lit "user"); mk_entry POAuthBearerToken (lit "tok");
                          mk_entry PAuthzId (lit "admin");
                          mk_entry POAuthBearerKV [(lit "host", lit "h"); (lit "port", lit "1")];
                          mk_entry PXOAuth2Validate None; mk_entry POAuthBearerValidate None])
    no_vcb no_chan.
(** One that reports an error for every token. *)
Definition ex_bad : env :=
  ex_env (fun _ => ex_cb [mk_entry PXOAuth2Validate (Some (lit "denied"));
                          mk_entry POAuthBearerValidate (Some (mk_oberr (lit "denied") None None))])
    no_vcb no_chan.
(** A client application that takes the error report. *)
Definition ex_handler : env :=
  ex_env (fun _ => CGetAction PXOAuth2Error (fun _ =>
                   CGetAction POAuthBearerErrored (fun _ => CRet None))) no_vcb no_chan.
Definition ex_at (m : mech) : session := mk_session m [] 0 None.

Lemma ex_oa_polite : polite ex_oa.
Proof. intros tr c k. simpl. repeat split. Qed.

(** C28: for user names without the separator ^A. Missing for the full property: user names
    containing it, for which it is false (C28_roundtrip_refuted). Any callbacks; writers that
    do not answer Ok(0) (see C20). *)
Theorem C28_xoauth2_roundtrip_partial : forall ec sc input script st msg sc',
  s_mech sc = XXOAuth2C OcInitial -> no_zero script ->
  step ec sc input script = (Ok st, msg, sc') ->
  exists evs user token, new_events sc sc' evs /\
    answers PAuthId evs = [user] /\ answers POAuthBearerToken evs = [token] /\
    (utf8_valid user = true -> utf8_valid token = true -> free (chr 1) user ->
     forall es ss script2 r out ss',
       s_mech ss = XXOAuth2S OsInitial -> step es ss (Some msg) script2 = (r, out, ss') ->
       exists evs', new_events ss ss' evs' /\
         consulted evs' PXOAuth2Validate (fun c => offers_xoauth2 c user token)).
Proof. exact xoauth2_roundtrip. Qed.
Print Assumptions C28_xoauth2_roundtrip_partial.

(** C28: the message format, for all user names and tokens. *)
Theorem C28_xoauth2_message : forall e s input script st msg s',
  s_mech s = XXOAuth2C OcInitial -> no_zero script ->
  step e s input script = (Ok st, msg, s') ->
  exists evs user token, new_events s s' evs /\ st = Running /\
    msg = xoauth2_message user token /\
    answers PAuthId evs = [user] /\ answers POAuthBearerToken evs = [token].
Proof. exact xoauth2_client_message. Qed.
Print Assumptions C28_xoauth2_message.

(** C28 is false for user names containing ^A: the user "user^Aauth=Bearer stolen" of the
    client arrives at the server as "user" with a token beginning with "stolen". *)
Definition ex_inject : env :=
  ex_env (fun _ => ex_cb [mk_entry PAuthId (lit "user" ++ chr 1 :: lit "auth=Bearer stolen");
                          mk_entry POAuthBearerToken (lit "tok");
                          mk_entry PXOAuth2Validate None]) no_vcb no_chan.

Theorem C28_roundtrip_refuted :
  ~ forall ec sc input script st msg sc',
      s_mech sc = XXOAuth2C OcInitial -> no_zero script ->
      step ec sc input script = (Ok st, msg, sc') ->
      exists evs user token, new_events sc sc' evs /\
        answers PAuthId evs = [user] /\ answers POAuthBearerToken evs = [token] /\
        (utf8_valid user = true -> utf8_valid token = true ->
         forall es ss script2 r out ss',
           s_mech ss = XXOAuth2S OsInitial -> step es ss (Some msg) script2 = (r, out, ss') ->
           (exists x, r = Err x /\ new_events ss ss' []) \/
           exists evs', new_events ss ss' evs' /\
             consulted evs' PXOAuth2Validate (fun c => offers_xoauth2 c user token)).
Proof.
  intros H.
  pose (cl := step ex_inject (ex_at (XXOAuth2C OcInitial)) None []).
  pose (sv := step ex_inject (ex_at (XXOAuth2S OsInitial)) (Some (snd (fst cl))) []).
  destruct (H ex_inject (ex_at (XXOAuth2C OcInitial)) None [] Running (snd (fst cl)) (snd cl))
    as [evs [user [token [Hn [Hu [Ht Hs]]]]]];
    [reflexivity|constructor|vm_compute; reflexivity|].
  assert (evs = s_trace (snd cl)) as -> by (symmetry; exact Hn).
  assert (user = lit "user" ++ chr 1 :: lit "auth=Bearer stolen") as ->.
  { vm_compute in Hu. injection Hu as <-. reflexivity. }
  assert (token = lit "tok") as ->.
  { vm_compute in Ht. injection Ht as <-. reflexivity. }
  destruct (Hs eq_refl eq_refl ex_inject (ex_at (XXOAuth2S OsInitial)) []
              (fst (fst sv)) (snd (fst sv)) (snd sv)) as [[x [Hx _]]|[evs [He Hc]]].
  - reflexivity.
  - unfold sv. destruct (step _ _ (Some _) _) as [[a b] c]; reflexivity.
  - vm_compute in Hx. discriminate.
  - assert (evs = s_trace (snd sv)) as -> by (symmetry; exact He).
    destruct Hc as [c [rest [Hc [[Ho _] _]]]]. vm_compute in Hc. injection Hc as <- _.
    vm_compute in Ho. discriminate.
Qed.
Print Assumptions C28_roundtrip_refuted.

(** C28: what happens in general: a user name can take the place of the separator and of
    the beginning of the token. *)
Theorem C28_injection : forall u x t,
  xoauth2_message (u ++ chr 1 :: lit "auth=Bearer " ++ x) t
  = xoauth2_message u (x ++ chr 1 :: lit "auth=Bearer " ++ t).
Proof. exact xoauth2_injection. Qed.
Print Assumptions C28_injection.

Example C28_example :
  let c := step ex_oa (ex_at (XXOAuth2C OcInitial)) None [WAccept 3; WAccept 9] in
  let s := step ex_oa (ex_at (XXOAuth2S OsInitial)) (Some (snd (fst c))) [] in
  fst c = (Ok Running, lit "user=user" ++ chr 1 :: lit "auth=Bearer tok" ++ [chr 1; chr 1]) /\
  fst s = (Ok (Finished false), []) /\
  s_trace (snd s) =
    (let p := xoauth2_provider (lit "user") (lit "tok") in
     [EvRequest PXOAuth2Validate p; EvAnswer PXOAuth2Validate None; EvValidate p]).
Proof. repeat split; vm_compute; reflexivity. Qed.

(** C29, server: whenever a step on a message returns Ok, there was exactly one verdict of
    the application and one validation; the verdict alone decides what is written, and after
    an error has been written any further step finishes. *)
Theorem C29_server : forall e s msg script st out s',
  s_mech s = XXOAuth2S OsInitial ->
  step e s (Some msg) script = (Ok st, out, s') ->
  exists c v evs, new_events s s' evs /\ answers PXOAuth2Validate evs = [v] /\
    validations evs = [c] /\
    match v with
    | None => st = Finished false /\ out = []
    | Some err => st = Running /\ out = err /\
        forall i script', step e s' i script' = (Ok (Finished false), [], s')
    end.
Proof. exact xoauth2_server_ok. Qed.
Print Assumptions C29_server.

(** C29, server: the verdict of the application takes effect for every well-formed message. *)
Theorem C29_server_complete : forall e s user token v,
  s_mech s = XXOAuth2S OsInitial ->
  free (chr 1) user -> utf8_valid user = true -> utf8_valid token = true ->
  provides e PXOAuth2Validate v -> validates e ->
  exists s', step e s (Some (xoauth2_message user token)) [] =
    match v with
    | None => (Ok (Finished false), [], s')
    | Some err => (Ok Running, err, s')
    end.
Proof. exact xoauth2_server_full. Qed.
Print Assumptions C29_server_complete.

(** C29, server: anything that is not a message is refused without asking the application. *)
Theorem C29_server_refuses : forall e s msg script r out s',
  s_mech s = XXOAuth2S OsInitial ->
  (forall u t, free (chr 1) u -> msg <> xoauth2_message u t) ->
  step e s (Some msg) script = (r, out, s') ->
  s' = s /\ out = [] /\ r = Err (EMech MXOAuth2InvalidFormat).
Proof. exact xoauth2_server_bad. Qed.
Print Assumptions C29_server_refuses.

(** C29, client: an absent or empty reply. *)
Theorem C29_client_success : forall e s i script,
  s_mech s = XXOAuth2C OcWaiting -> i = None \/ i = Some [] ->
  step e s i script
  = (Ok (Finished false), [], mk_session (XXOAuth2C OcDone) (s_trace s) (s_rng s) (s_val s)).
Proof. exact client_waiting_none. Qed.
Print Assumptions C29_client_success.

(** C29, client: any other reply is handed to the application, unchanged; the step fails
    unless the application takes it. *)
Theorem C29_client_error : forall e s x script r out s',
  s_mech s = XXOAuth2C OcWaiting -> x <> [] -> step e s (Some x) script = (r, out, s') ->
  out = [] /\
  if utf8_valid x then
    exists cs r0, follows (e_cb e (s_trace s) (e_sd e) [] (RAction PXOAuth2Error)) cs r0 /\
      action_answers PXOAuth2Error x true cs /\
      new_events s s' (EvAction PXOAuth2Error x [] ::
                       if took PXOAuth2Error cs then [EvTaken PXOAuth2Error] else []) /\
      r = if returned_ok r0
          then if took PXOAuth2Error cs then Ok (Finished true)
               else Err (ECbNoCallback PXOAuth2Error)
          else match r0 with Some y => Err y | None => Ok (Finished true) end
  else new_events s s' [] /\ r = Err (EMech MXOAuth2NotUtf8).
Proof. exact xoauth2_client_error. Qed.
Print Assumptions C29_client_error.

Example C29_example :
  let msg := xoauth2_message (lit "u") (lit "t") in
  let s1 := step ex_bad (ex_at (XXOAuth2S OsInitial)) (Some msg) [] in
  let s2 := step ex_bad (snd s1) (Some []) [] in
  let c1 := step ex_handler (ex_at (XXOAuth2C OcWaiting)) (Some (snd (fst s1))) [] in
  let c2 := step ex_bad (ex_at (XXOAuth2C OcWaiting)) (Some (snd (fst s1))) [] in
  fst s1 = (Ok Running, lit "denied") /\ fst s2 = (Ok (Finished false), []) /\
  fst c1 = (Ok (Finished true), []) /\ fst c2 = (Err (ECbNoCallback PXOAuth2Error), []) /\
  s_trace (snd c1) = [EvAction PXOAuth2Error (lit "denied") []; EvTaken PXOAuth2Error] /\
  fst (step ex_bad (ex_at (XXOAuth2S OsInitial)) (Some (lit "user=u")) [])
  = (Err (EMech MXOAuth2InvalidFormat), []).
Proof. repeat split; vm_compute; reflexivity. Qed.

(** C30: for values without the separators and error-propagating callbacks. Missing for the
    full property: the token, which the server delivers with the prefix "Bearer " (so the
    property is false, C30_token_refuted), and values containing separators, which the client
    sends unchecked (C30_separators_refuted). *)
Theorem C30_oauthbearer_roundtrip_partial : forall ec sc input script st msg sc',
  s_mech sc = XOAuthBearerC OcInitial -> polite ec -> no_zero script ->
  step ec sc input script = (Ok st, msg, sc') ->
  exists evs z kv token, new_events sc sc' evs /\
    @answered PAuthzId evs z /\ @answered POAuthBearerKV evs kv /\
    answers POAuthBearerToken evs = [token] /\
    (sendable_authzid z -> Forall sendable_pair (match kv with Some l => l | None => [] end) ->
     free (chr 1) token -> utf8_valid token = true ->
     forall es ss script2 r out ss',
       s_mech ss = XOAuthBearerS OsInitial -> step es ss (Some msg) script2 = (r, out, ss') ->
       exists evs', new_events ss ss' evs' /\
         consulted evs' POAuthBearerValidate (fun c =>
           offers_oauthbearer c z (lit "Bearer " ++ token)
             (match kv with Some l => l | None => [] end))).
Proof. exact oauthbearer_roundtrip. Qed.
Print Assumptions C30_oauthbearer_roundtrip_partial.

(** C30: the message format, for all values. *)
Theorem C30_oauthbearer_message : forall e s input script st msg s',
  s_mech s = XOAuthBearerC OcInitial -> polite e -> no_zero script ->
  step e s input script = (Ok st, msg, s') ->
  exists evs z kv token, new_events s s' evs /\ st = Running /\
    msg = oauthbearer_message z (match kv with Some l => l | None => [] end) token /\
    @answered PAuthzId evs z /\ @answered POAuthBearerKV evs kv /\
    answers POAuthBearerToken evs = [token].
Proof. exact oauthbearer_client_message. Qed.
Print Assumptions C30_oauthbearer_message.

(** C30 is false: the server never offers the client's token, whatever it is. *)
Theorem C30_token_refuted : forall e s z kv t script r out s' evs c rest,
  s_mech s = XOAuthBearerS OsInitial ->
  sendable_authzid z -> Forall sendable_pair kv -> free (chr 1) t -> utf8_valid t = true ->
  step e s (Some (oauthbearer_message z kv t)) script = (r, out, s') ->
  new_events s s' evs -> evs = EvRequest POAuthBearerValidate c :: rest ->
  get_ref c POAuthBearerToken <> Some t.
Proof.
  intros e s z kv t script r out s' evs c rest Hm Hz Hkv Ht Hu H Hn He.
  destruct (oauthbearer_server_sees e s z kv t script r out s' Hm Hz Hkv Ht Hu H)
    as [evs' [Hn' [c' [rest' [He' [[_ [Hg _]] _]]]]]].
  assert (evs = evs') as <- by (unfold new_events in *; apply app_inv_head with (s_trace s); congruence).
  rewrite He in He'. injection He' as <- _. rewrite Hg. intros E. injection E as E.
  apply (f_equal (@length ascii)) in E. change (7 + length t = length t) in E. lia.
Qed.
Print Assumptions C30_token_refuted.

(** C30 is false for separators too: "admin,x" arrives as "admin", and a key/value pair
    whose value contains "=" makes the server refuse the message. *)
Theorem C30_separators_refuted :
  ob_parse (oauthbearer_message (Some (lit "admin,x")) [] (lit "tok"))
    = Ok (mk_obmsg (Some (lit "admin")) (lit "Bearer tok") []) /\
  ob_parse (oauthbearer_message None [(lit "k", lit "a=b")] (lit "tok"))
    = Err ObInvalidKVPair /\
  ob_parse (oauthbearer_message None [(lit "auth", lit "x")] (lit "tok"))
    = Ok (mk_obmsg None (lit "Bearer tok") []) /\
  ob_parse (oauthbearer_message None [] (lit "tok" ++ chr 1 :: lit "auth=Bearer other"))
    = Ok (mk_obmsg None (lit "Bearer other") []).
Proof. repeat split; vm_compute; reflexivity. Qed.
Print Assumptions C30_separators_refuted.

Example C30_example :
  let c := step ex_oa (ex_at (XOAuthBearerC OcInitial)) None [WAccept 3; WAccept 9] in
  let s := step ex_oa (ex_at (XOAuthBearerS OsInitial)) (Some (snd (fst c))) [] in
  let kv := [(lit "host", lit "h"); (lit "port", lit "1")] in
  polite ex_oa /\
  fst c = (Ok Running, lit "n,a=admin," ++ chr 1 :: lit "host=h" ++ chr 1 :: lit "port=1" ++
                       chr 1 :: lit "auth=Bearer tok" ++ [chr 1; chr 1]) /\
  fst s = (Ok (Finished false), []) /\
  s_trace (snd s) =
    (let p := oauthbearer_provider (mk_obmsg (Some (lit "admin")) (lit "Bearer tok") kv) in
     [EvRequest POAuthBearerValidate p; EvAnswer POAuthBearerValidate None; EvValidate p]) /\
  Forall sendable_pair kv.
Proof.
  split; [exact ex_oa_polite|]. split; [vm_compute; reflexivity|].
  split; [vm_compute; reflexivity|]. split; [vm_compute; reflexivity|].
  repeat constructor; unfold free; cbn; intuition discriminate.
Qed.

(** C55, server *)
Theorem C55_server : forall e s msg script st out s',
  s_mech s = XOAuthBearerS OsInitial ->
  step e s (Some msg) script = (Ok st, out, s') ->
  exists c v evs, new_events s s' evs /\ answers POAuthBearerValidate evs = [v] /\
    validations evs = [c] /\
    match v with
    | None => st = Finished false /\ out = []
    | Some err => st = Running /\ out = e_json_to e err /\
        forall i script', step e s' i script' = (Ok (Finished false), [], s')
    end.
Proof. exact oauthbearer_server_ok. Qed.
Print Assumptions C55_server.

(** C55, server: the verdict of the application takes effect. *)
Theorem C55_server_complete : forall e s z kv t v,
  s_mech s = XOAuthBearerS OsInitial ->
  sendable_authzid z -> Forall sendable_pair kv -> free (chr 1) t -> utf8_valid t = true ->
  provides e POAuthBearerValidate v -> validates e ->
  exists s', step e s (Some (oauthbearer_message z kv t)) [] =
    match v with
    | None => (Ok (Finished false), [], s')
    | Some err => (Ok Running, e_json_to e err, s')
    end.
Proof. exact oauthbearer_server_full. Qed.
Print Assumptions C55_server_complete.

(** C55, client: an absent or empty reply. *)
Theorem C55_client_success : forall e s i script,
  s_mech s = XOAuthBearerC OcWaiting -> i = None \/ i = Some [] ->
  step e s i script
  = (Ok (Finished false), [], mk_session (XOAuthBearerC OcDone) (s_trace s) (s_rng s) (s_val s)).
Proof. exact ob_client_waiting_none. Qed.
Print Assumptions C55_client_success.

(** C55, client: any other reply is decoded and handed to the application. *)
Theorem C55_client_error : forall e s x script r out s',
  s_mech s = XOAuthBearerC OcWaiting -> x <> [] -> step e s (Some x) script = (r, out, s') ->
  out = [] /\
  match e_json_from e x with
  | Some err =>
    exists cs r0, follows (e_cb e (s_trace s) (e_sd e) [] (RAction POAuthBearerErrored)) cs r0 /\
      action_answers POAuthBearerErrored err true cs /\
      new_events s s' (EvAction POAuthBearerErrored err [] ::
         if took POAuthBearerErrored cs then [EvTaken POAuthBearerErrored] else []) /\
      r = if returned_ok r0
          then if took POAuthBearerErrored cs then Ok (Finished true)
               else Err (ECbNoCallback POAuthBearerErrored)
          else match r0 with Some y => Err y | None => Ok (Finished true) end
  | None => new_events s s' [] /\ r = Err (EMech MOAuthBearerSerde)
  end.
Proof. exact oauthbearer_client_error. Qed.
Print Assumptions C55_client_error.

Example C55_example :
  let msg := oauthbearer_message None [] (lit "t") in
  let s1 := step ex_bad (ex_at (XOAuthBearerS OsInitial)) (Some msg) [] in
  let s2 := step ex_bad (snd s1) (Some [chr 1]) [] in
  let c1 := step ex_handler (ex_at (XOAuthBearerC OcWaiting)) (Some (snd (fst s1))) [] in
  fst s1 = (Ok Running, lit "denied") /\ fst s2 = (Ok (Finished false), []) /\
  fst c1 = (Ok (Finished true), []) /\
  s_trace (snd c1) = [EvAction POAuthBearerErrored (mk_oberr (lit "denied") None None) [];
                      EvTaken POAuthBearerErrored].
Proof. repeat split; vm_compute; reflexivity. Qed.
