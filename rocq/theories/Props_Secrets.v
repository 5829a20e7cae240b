(** C128: a secret looks the same to all servers. *)
From Verif Require Import Bytes Utf8 Base64 Num Types World CallbackSpec Simple OAuth ScramParser Scram Gssapi Session
  Registry Spec_Simple Spec_OAuth Spec_ScramText Spec_Scram Spec_Registry Spec_Order Spec_History Spec_Names Spec_Secrets
  ExampleEnv ExampleScram Proof_Secrets.

(** C128 is false: the token "tok" of an OAUTHBEARER client is shown as "Bearer tok". *)
Definition ex_tok : env := ex_env (fun _ => ex_cb [mk_entry PAuthId (lit "user"); mk_entry POAuthBearerToken (lit "tok")]) no_vcb no_chan.
Definition ex_bc : session := ex_at (XOAuthBearerC OcInitial).
Definition ex_bs : session := ex_at (XOAuthBearerS OsInitial).
Definition ex_ob1 := Eval vm_compute in step ex_tok ex_bc None [].
Definition ex_ob2 := Eval vm_compute in step ex_sv ex_bs (Some (out_of ex_ob1)) [].
Lemma ex_b_told : told ex_tok ex_sv DOAuthBearer ex_bc ex_bs (ses_of ex_ob1) ex_bs (out_of ex_ob1).
Proof.
  exists 0, None, ex_bc, [], Running. split; [apply (chat_start ex_tok ex_sv DOAuthBearer)|].
  split; [constructor|vm_compute; reflexivity].
Qed.
Lemma ex_b_proper : proper_secrets DOAuthBearer (s_trace (ses_of ex_ob1)).
Proof.
  split; [split; [ex_text|]; split; [|discriminate]|intros _; split; [|split]]; vm_compute.
  - intros t [<-|[]]. reflexivity.
  - intros z [].
  - intros kv [].
  - intros t [<-|[]]. intros K. repeat (destruct K as [K|K]; [discriminate K|]). exact K.
Qed.
Lemma ex_tok_polite : polite ex_tok.
Proof. intros tr c k. simpl. repeat split. Qed.
Lemma ex_b_shown : exists x, shown (s_trace (ses_of ex_ob2)) x /\ secret_in x (lit "Bearer tok").
Proof.
  exists (oauthbearer_provider (mk_obmsg None (lit "Bearer tok") [])).
  split; [right; left; exists POAuthBearerValidate; vm_compute; left; reflexivity|right; reflexivity].
Qed.

Theorem C128_refuted : ~ (forall ec es reg m c0 s0 c s msg evs script r out s' evs' x b,
  begun reg SClient m c0 -> begun reg SServer m s0 -> polite ec ->
  told ec es m c0 s0 c s msg -> new_events c0 c evs -> proper_secrets m evs ->
  step es s (Some msg) script = (r, out, s') -> new_events s s' evs' -> shown evs' x ->
  secret_in x b -> In b (secrets evs)).
Proof.
  intros H. destruct ex_b_shown as (x & S & G).
  assert (K : In (lit "Bearer tok") (secrets (s_trace (ses_of ex_ob1)))).
  { refine (H ex_tok ex_sv [] DOAuthBearer ex_bc ex_bs (ses_of ex_ob1) ex_bs (out_of ex_ob1) _ [] (res_of ex_ob2)
      (out_of ex_ob2) (ses_of ex_ob2) _ x _ fc_oauthbearer (fs_oauthbearer []) ex_tok_polite ex_b_told eq_refl ex_b_proper
      _ eq_refl S G).
    vm_compute. reflexivity. }
  vm_compute in K. destruct K as [K|[]]. discriminate K.
Qed.
Print Assumptions C128_refuted.

(** C128: a password or token the server's application is shown in answer to a message of the client is
    one the client's application gave, if saslprep leaves the secrets that are text alone and the
    mechanism is not OAUTHBEARER. Missing: OAUTHBEARER and other secrets. *)
Theorem C128_partial : forall ec es reg m c0 s0 c s msg evs script r out s' evs' x b,
  begun reg SClient m c0 -> begun reg SServer m s0 -> polite ec ->
  told ec es m c0 s0 c s msg -> new_events c0 c evs -> proper_secrets m evs -> m <> DOAuthBearer ->
  (forall p, In p (secrets evs) -> utf8_valid p = true -> prepared es p p) ->
  step es s (Some msg) script = (r, out, s') -> new_events s s' evs' -> shown evs' x ->
  secret_in x b -> In b (secrets evs).
Proof.
  intros ec es reg m c0 s0 c s msg evs script r out s' evs' x b Bc Bs Po T N P NB F K N' S G.
  destruct (secrets_arrive _ _ _ _ _ _ _ _ _ _ _ _ _ _ _ _ _ Bc Bs Po T N P K N' S G) as (p & I & W).
  rewrite (secret_same _ _ _ _ W NB (F p I)). exact I.
Qed.
Print Assumptions C128_partial.

(** C128: in general it is what the mechanism makes of such a secret; the mechanisms [secret_as] leaves
    out, SCRAM among them, show none. *)
Theorem C128_seen : forall ec es reg m c0 s0 c s msg evs script r out s' evs' x b,
  begun reg SClient m c0 -> begun reg SServer m s0 -> polite ec ->
  told ec es m c0 s0 c s msg -> new_events c0 c evs -> proper_secrets m evs ->
  step es s (Some msg) script = (r, out, s') -> new_events s s' evs' -> shown evs' x ->
  secret_in x b -> exists p, In p (secrets evs) /\ secret_as es m p b.
Proof. exact secrets_arrive. Qed.
Print Assumptions C128_seen.

(** C128: every token is shown differently by XOAUTH2 and by OAUTHBEARER. *)
Theorem C128_tokens : forall es ec1 cx i1 sc1 st1 m1 cx1 ev1 sx sc1' r1 out1 sx1 a t
    ec2 cb i2 sc2 st2 m2 cb1 ev2 sb sc2' r2 out2 sb1,
  s_mech cx = XXOAuth2C OcInitial -> no_zero sc1 -> step ec1 cx i1 sc1 = (Ok st1, m1, cx1) -> new_events cx cx1 ev1 ->
  answers PAuthId ev1 = [a] -> answers POAuthBearerToken ev1 = [t] ->
  free (chr 1) a -> utf8_valid a = true -> free (chr 1) t -> utf8_valid t = true ->
  s_mech sx = XXOAuth2S OsInitial -> step es sx (Some m1) sc1' = (r1, out1, sx1) ->
  s_mech cb = XOAuthBearerC OcInitial -> polite ec2 -> no_zero sc2 ->
  step ec2 cb i2 sc2 = (Ok st2, m2, cb1) -> new_events cb cb1 ev2 -> proper_secrets DOAuthBearer ev2 ->
  answers POAuthBearerToken ev2 = [t] ->
  s_mech sb = XOAuthBearerS OsInitial -> step es sb (Some m2) sc2' = (r2, out2, sb1) ->
  exists evx evb c c', new_events sx sx1 evx /\ shown evx c /\ new_events sb sb1 evb /\ shown evb c' /\
    get_ref c POAuthBearerToken = Some t /\ get_ref c' POAuthBearerToken = Some (lit "Bearer " ++ t) /\
    ~ secret_in c' t.
Proof. exact tokens_apart. Qed.
Print Assumptions C128_tokens.

(** C128: a password is prepared by PLAIN and left alone by LOGIN. *)
Theorem C128_passwords : forall es ec1 cp i1 sc1 st1 m1 cp1 ev1 sp sc1' r1 out1 sp1 p b
    ec2 cl i2 sc2 st2 m2 cl1 ev2 sl u sc2' r2 out2 sl1,
  s_mech cp = XPlainC -> step ec1 cp i1 sc1 = (Ok st1, m1, cp1) -> new_events cp cp1 ev1 ->
  answers PPassword ev1 = [p] -> utf8_valid p = true -> prepared es p b ->
  s_mech sp = XPlainS -> step es sp (Some m1) sc1' = (Ok r1, out1, sp1) ->
  s_mech cl = XLoginC LcPassword -> step ec2 cl i2 sc2 = (Ok st2, m2, cl1) -> new_events cl cl1 ev2 ->
  answers PPassword ev2 = [p] ->
  s_mech sl = XLoginS (LsPass u) -> step es sl (Some m2) sc2' = (Ok r2, out2, sl1) ->
  exists c c', new_events sp sp1 [EvValidate c] /\ new_events sl sl1 [EvValidate c'] /\
    get_ref c PPassword = Some b /\ get_ref c' PPassword = Some p.
Proof. exact passwords_apart. Qed.
Print Assumptions C128_passwords.

(** ** Examples *)

(** "se-cret" arrives with the message of a PLAIN client. *)
Definition ex_pw : env := ex_env (fun _ => ex_cb [mk_entry PAuthId (lit "user"); mk_entry PPassword (lit "se-cret")]) no_vcb no_chan.
Definition ex_p1 := Eval vm_compute in step ex_pw (ex_at XPlainC) None [].
Example C128_plain_example :
  told ex_pw ex_sv DPlain (ex_at XPlainC) (ex_at XPlainS) (ses_of ex_p1) (ex_at XPlainS) (out_of ex_p1) /\
  proper_secrets DPlain (s_trace (ses_of ex_p1)) /\ secrets (s_trace (ses_of ex_p1)) = [lit "se-cret"] /\
  prepared ex_sv (lit "se-cret") (lit "se-cret") /\
  s_trace (ses_of (step ex_sv (ex_at XPlainS) (Some (out_of ex_p1)) []))
  = [EvValidate (plain_provider (lit "user") [] (lit "se-cret"))].
Proof.
  split.
  { exists 0, None, (ex_at XPlainC), [], (Finished true). split; [apply (chat_start ex_pw ex_sv DPlain)|].
    split; [constructor|vm_compute; reflexivity]. }
  split; [split; [split; [ex_text|split; [intros t []|discriminate]]|discriminate]|].
  split; [vm_compute; reflexivity|]. split; [split; [reflexivity|discriminate]|vm_compute; reflexivity].
Qed.

(** "tok" with XOAUTH2 and with OAUTHBEARER. *)
Example C128_tokens_example :
  let x := step ex_tok (ex_at (XXOAuth2C OcInitial)) None [] in
  let y := step ex_sv (ex_at (XXOAuth2S OsInitial)) (Some (out_of x)) [] in
  res_of x = Ok Running /\ answers PAuthId (s_trace (ses_of x)) = [lit "user"] /\
  answers POAuthBearerToken (s_trace (ses_of x)) = [lit "tok"] /\
  In (EvRequest PXOAuth2Validate (xoauth2_provider (lit "user") (lit "tok"))) (s_trace (ses_of y)) /\
  answers POAuthBearerToken (s_trace (ses_of ex_ob1)) = [lit "tok"] /\
  In (EvRequest POAuthBearerValidate (oauthbearer_provider (mk_obmsg None (lit "Bearer tok") []))) (s_trace (ses_of ex_ob2)).
Proof. vm_compute. repeat split; auto. Qed.

(** A server whose preparation drops hyphens, as SASLprep does with soft ones. *)
Definition ex_prep : env :=
  mk_env (mk_sdata (lit "TEST") SClient) (fun _ _ _ r => ex_cb [] ) (fun _ _ c => no_vcb c) 0 no_chan
    (fun n => N.of_nat (7 * n + 3)) ex_hash ex_hmac ex_pbkdf2 (fun x => Some (filter (fun c => negb (beq c "-"%char)) x))
    (fun o => ob_status o) (fun x => Some (mk_oberr x None None))
    (fun _ => true) true
    (fun c i => Some (Some (lit "tok"))) (fun c => Nat.leb 2 (length c))
    (fun _ => Some (mk_gflags true true true))
    (fun c conf m => Some m) (fun c m => Some m).
Example C128_passwords_example :
  let l := step ex_pw (ex_at (XLoginC LcPassword)) (Some login_prompt2) [] in
  let p := step ex_prep (ex_at XPlainS) (Some (out_of ex_p1)) [] in
  let q := step ex_prep (ex_at (XLoginS (LsPass (lit "user")))) (Some (out_of l)) [] in
  res_of ex_p1 = Ok (Finished true) /\ res_of l = Ok (Finished true) /\
  answers PPassword (s_trace (ses_of l)) = [lit "se-cret"] /\ prepared ex_prep (lit "se-cret") (lit "secret") /\
  res_of p = Ok (Finished false) /\ res_of q = Ok (Finished false) /\
  s_trace (ses_of p) = [EvValidate (plain_provider (lit "user") [] (lit "secret"))] /\
  s_trace (ses_of q) = [EvValidate (login_provider (lit "user") (lit "se-cret"))].
Proof.
  cbv zeta. do 3 (split; [vm_compute; reflexivity|]). split; [split; [vm_compute; reflexivity|discriminate]|].
  vm_compute. repeat split; reflexivity.
Qed.
