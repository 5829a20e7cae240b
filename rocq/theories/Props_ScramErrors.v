(** C62, C63, C65: what a refusing SCRAM server tells the client. *)
From Verif Require Import Bytes Utf8 Types World CallbackSpec Base64 Num Simple OAuth ScramParser
  Scram Gssapi Session Registry Spec_Wire Spec_Registry Spec_Simple Spec_OAuth Spec_ScramText Spec_Scram
  ExampleEnv ExampleScram Proof_Scram Proof_ScramErrors.

(** C62: the server names the cause, and vouches for nobody. *)
Theorem C62_undecodable_binding : forall e s a cn sn header user z sp m cb fn p64 exts,
  server_waits s a cn sn header user z sp -> final_fields m cb fn p64 exts ->
  decode cb = None -> rejects_base64 s (step e s (Some m) []).
Proof. exact binding_undecodable. Qed.
Print Assumptions C62_undecodable_binding.
Theorem C62_wrong_binding : forall e s a cn sn header user z sp m cb fn p64 exts b,
  server_waits s a cn sn header user z sp -> final_fields m cb fn p64 exts ->
  decode cb = Some b -> b <> header ->
  reports s (step e s (Some m) []) (lit "channel-bindings-dont-match").
Proof. exact binding_wrong. Qed.
Print Assumptions C62_wrong_binding.
Theorem C62_wrong_nonce : forall e s a cn sn header user z sp m cb fn p64 exts,
  server_waits s a cn sn header user z sp -> final_fields m cb fn p64 exts ->
  decode cb = Some header -> fn <> cn ++ sn ->
  reports s (step e s (Some m) []) (lit "invalid-proof").
Proof. exact nonce_wrong. Qed.
Print Assumptions C62_wrong_nonce.
Theorem C62_wrong_proof : forall e s a cn sn header user z sp m cb p64 exts P,
  server_waits s a cn sn header user z sp -> crypto_ok e ->
  final_fields m cb (cn ++ sn) p64 exts ->
  decode cb = Some header -> proof_value a p64 P ->
  ~ proves e a (st_stored_key sp)
      (exchange_message user cn sn (encode (st_salt sp)) (fmt_u32 (st_iterations sp)) cb) P ->
  reports s (step e s (Some m) []) (lit "invalid-proof").
Proof. exact proof_wrong. Qed.
Print Assumptions C62_wrong_proof.
Theorem C62_undecodable_proof : forall e s a cn sn header user z sp m cb p64 exts,
  server_waits s a cn sn header user z sp -> final_fields m cb (cn ++ sn) p64 exts ->
  decode cb = Some header -> (forall P, ~ proof_value a p64 P) ->
  if Nat.leb (length p64) (hlen a * 4 / 3 + 3) then rejects_base64 s (step e s (Some m) [])
  else reports s (step e s (Some m) []) (lit "invalid-proof").
Proof. exact proof_undecodable. Qed.
Print Assumptions C62_undecodable_proof.
Theorem C62_unknown_user : forall e s a m cb fn p64 exts,
  server_pretends s a -> final_fields m cb fn p64 exts ->
  reports s (step e s (Some m) []) (lit "unknown-user").
Proof. exact unknown_reports. Qed.
Print Assumptions C62_unknown_user.

(** C62: the client hands the cause to the application, unlisted ones as "other error". *)
Theorem C62_client_told : forall e s a sig ck sk salt n v script,
  client_expects s a sig ck sk salt n ->
  exists x s', step e s (Some (lit "e=" ++ v)) script = (Err (EMech (MScramServerError x)), [], s') /\
    new_events s s' [] /\ s_val s' = s_val s /\
    (error_value x v \/ (x = SeOtherError /\ forall y, ~ error_value y v)).
Proof. exact client_told. Qed.
Print Assumptions C62_client_told.

Definition ex_final (cb p64 : bytes) : bytes :=
  final_bare cb (skipn 2 (firstn 50 ex_y2)) ++ lit ",p=" ++ p64.
Definition ex_zero : bytes := encode (repeat (chr 0) 20).
Example C62_example :
  (exists cn sn header user z, server_waits ex_ys2 SHA1 cn sn header user z ex_sp /\
     header = lit "y,a=admin," /\ cn ++ sn = skipn 2 (firstn 50 ex_y2)) /\
  (exists exts, final_fields (ex_final (lit "biws") ex_zero) (lit "biws")
                  (skipn 2 (firstn 50 ex_y2)) ex_zero exts) /\
  decode (lit "biws") = Some (lit "n,,") /\
  decode (lit "eSxhPWFkbWluLA==") = Some (lit "y,a=admin,") /\
  proof_value SHA1 ex_zero (repeat (chr 0) 20) /\
  fst (step ex_sv ex_ys2 (Some (ex_final (lit "biws") ex_zero)) [])
    = (Ok (Finished true), lit "e=channel-bindings-dont-match") /\
  fst (step ex_sv ex_ys2 (Some (ex_final (lit "eSxhPWFkbWluLA==") ex_zero)) [])
    = (Ok (Finished true), lit "e=invalid-proof") /\
  (exists sig ck sk salt n, client_expects ex_ys3 SHA1 sig ck sk salt n) /\
  fst (step ex_cl ex_ys3 (Some (lit "e=no-resources")) [])
    = (Err (EMech (MScramServerError SeNoResources)), []).
Proof.
  split; [do 5 eexists; split; [unfold server_waits; vm_compute; reflexivity|split; reflexivity]|].
  split.
  { exists []. split; [reflexivity|]. unfold free.
    split; [vm_compute; intuition discriminate|]. split; [vm_compute; intuition discriminate|].
    split; [vm_compute; intuition discriminate|constructor]. }
  split; [reflexivity|]. split; [reflexivity|].
  split; [exists (repeat (chr 0) 20); split; [vm_compute; reflexivity|split; [apply le_n|reflexivity]]|].
  split; [vm_compute; reflexivity|]. split; [vm_compute; reflexivity|].
  split; [do 5 eexists; unfold client_expects; vm_compute; reflexivity|]. vm_compute. reflexivity.
Qed.

(** C63 is false as stated: the final message tells whether the user exists. *)
Theorem C63_hidden_refuted :
  ~ forall e s1 s2 a cn sn header user z sp m cb fn p64 exts,
      crypto_ok e -> server_waits s1 a cn sn header user z sp -> server_pretends s2 a ->
      final_fields m cb fn p64 exts ->
      (forall cb' p' exts', ~ authenticates e a cn sn header user sp m cb' p' exts') ->
      snd (fst (step e s1 (Some m) [])) = snd (fst (step e s2 (Some m) [])).
Proof.
  intros H.
  assert (E : step ex_sv ex_ys2 (Some (ex_final (lit "biws") ex_zero)) []
    = (Ok (Finished true), lit "e=channel-bindings-dont-match",
       ses_of (step ex_sv ex_ys2 (Some (ex_final (lit "biws") ex_zero)) [])))
    by (vm_compute; reflexivity).
  destruct C62_example as [[cn [sn [header [user [z [W [-> _]]]]]]] [[exts F] [D _]]].
  specialize (H ex_sv ex_ys2 (ex_at (XScramS SHA1 (Some (SsClientFinal None)))) SHA1 cn sn
    (lit "y,a=admin,") user z ex_sp _ _ _ _ exts (ex_crypto _ _ _) W eq_refl F).
  rewrite E in H.
  assert (G : fst (step ex_sv (ex_at (XScramS SHA1 (Some (SsClientFinal None))))
     (Some (ex_final (lit "biws") ex_zero)) []) = (Ok (Finished true), lit "e=unknown-user"))
    by (vm_compute; reflexivity).
  rewrite G in H. discriminate H.
  intros cb' p' exts' A.
  destruct (server_second _ _ _ _ _ _ _ _ _ _ _ _ _ _ W (ex_crypto _ _ _) E) as [B|[B _]].
  - destruct B as [x1 [x2 [x3 [rest [_ [B _]]]]]]. discriminate B.
  - exact (B _ _ _ A).
Qed.
Print Assumptions C63_hidden_refuted.

(** A client that does not know a single password learns it from any well-formed message:
    the server says unknown-user for unknown users (C62_unknown_user), never for known ones. *)
Theorem C63_known_differs : forall e s a cn sn header user z sp m r out s',
  server_waits s a cn sn header user z sp -> crypto_ok e ->
  step e s (Some m) [] = (r, out, s') -> out <> lit "e=unknown-user".
Proof. exact known_not_unknown. Qed.
Print Assumptions C63_known_differs.

(** C63: the first message alone does not tell: an unknown user is answered as some known user
    would be. Missing: the final message, and a second exchange, where the salt differs. *)
Theorem C63_first_partial : forall e1 e2 s a plus m f two z user cn t data sp,
  s_mech s = XScramS a (Some (SsClientFirst plus)) ->
  client_first_fields m f two z user cn t ->
  (f = CbSupportedNotUsed -> plus = false) ->
  server_can_bind e1 f data -> server_can_bind e2 f data ->
  (forall n, e_rng e2 n = e_rng e1 n) ->
  looks_up e1 user z None -> looks_up e2 user z (Some sp) -> usable a sp ->
  st_salt sp = dummy_salt e1 (24 + s_rng s) -> st_iterations sp = 16384%N ->
  exists out s1 s2, step e1 s (Some m) [] = (Ok Running, out, s1) /\
    step e2 s (Some m) [] = (Ok Running, out, s2).
Proof. exact first_could_be_known. Qed.
Print Assumptions C63_first_partial.

(** C65: a stored password whose keys have the wrong length ends the exchange: nothing is sent, no
    random number is drawn. *)
Theorem C65_stored : forall e s a plus m f two z user cn t data sp script,
  s_mech s = XScramS a (Some (SsClientFirst plus)) ->
  client_first_fields m f two z user cn t ->
  (f = CbSupportedNotUsed -> plus = false) -> server_can_bind e f data ->
  looks_up e user z (Some sp) -> ~ usable a sp ->
  exists s', step e s (Some m) script = (Err (EMech MScramPasswordHashInvalid), [], s') /\
    s_mech s' = XScramS a None /\ s_rng s' = s_rng s /\ s_val s' = s_val s.
Proof. exact unusable_refused. Qed.
Print Assumptions C65_stored.

Definition ex_short : env :=
  ex_env (fun _ => ex_cb [mk_entry PScramStoredPassword
    (mk_stored 4096 (lit "salt") (repeat (chr 0) 19) (repeat (chr 0) 20))]) no_vcb no_chan.
Example C65_stored_example :
  looks_up ex_short (lit "user") None
    (Some (mk_stored 4096 (lit "salt") (repeat (chr 0) 19) (repeat (chr 0) 20))) /\
  ~ usable SHA1 (mk_stored 4096 (lit "salt") (repeat (chr 0) 19) (repeat (chr 0) 20)) /\
  fst (step ex_short (ex_s false) (Some (lit "n,,n=user,r=abc")) [])
    = (Err (EMech MScramPasswordHashInvalid), []) /\
  res_of (step ex_sv (ex_s false) (Some (lit "n,,n=user,r=abc")) []) = Ok Running.
Proof.
  split; [intros tr c _; cbn; repeat split|]. split; [intros [H _]; discriminate H|].
  split; vm_compute; reflexivity.
Qed.

(** C65 is false for the client: cached keys of the wrong length do not make the step fail... *)
Definition ex_shortc : env :=
  ex_env (fun _ => ex_cb [mk_entry PScramCachedPassword (mk_cached (lit "short") (lit "keys"))])
    no_vcb no_chan.
Lemma ex_shortc_waits : exists cb user, client_waits ex_bs1 SHA1 cb (skipn 32 ex_b1) user.
Proof. do 2 eexists. unfold client_waits. vm_compute. reflexivity. Qed.
Lemma ex_shortc_continues :
  continues ex_b2 (skipn 32 ex_b1) (skipn 32 ex_b1) (encode (lit "salt")) (lit "salt") (lit "4096") 4096.
Proof.
  split; [vm_compute; reflexivity|].
  split; [discriminate|]. split; [vm_compute; reflexivity|]. split; [vm_compute; reflexivity|].
  split; [discriminate|]. unfold free. vm_compute.
  split; [intuition discriminate|]. split; [intuition discriminate|intuition discriminate].
Qed.
Theorem C65_cached_refuted :
  ~ forall e s a cb nonce user m sn salt64 salt iters n c script,
      client_waits s a cb nonce user -> continues m nonce sn salt64 salt iters n ->
      @provides e PScramCachedPassword c -> ~ fitting a c ->
      exists x out s', step e s (Some m) script = (Err x, out, s').
Proof.
  intros H. destruct ex_shortc_waits as [cb [user W]].
  destruct (H ex_shortc _ _ _ _ _ _ _ _ _ _ _ (mk_cached (lit "short") (lit "keys")) [] W
    ex_shortc_continues) as [x [out [s' E]]].
  - intros tr c. cbn. repeat split.
  - intros [K _]. discriminate K.
  - destruct (cached_panics ex_shortc _ _ _ _ _ _ _ _ _ _ _ (mk_cached (lit "short") (lit "keys")) [] W
      ex_shortc_continues) as [s1 E1].
    + intros tr c. cbn. repeat split.
    + intros [K _]. discriminate K.
    + rewrite E1 in E. discriminate E.
Qed.
Print Assumptions C65_cached_refuted.

(** ... but always panic, before anything is sent. *)
Theorem C65_cached_partial : forall e s a cb nonce user m sn salt64 salt iters n c script,
  client_waits s a cb nonce user -> continues m nonce sn salt64 salt iters n ->
  @provides e PScramCachedPassword c -> ~ fitting a c ->
  exists s', step e s (Some m) script = (Panic, [], s').
Proof. exact cached_panics. Qed.
Print Assumptions C65_cached_partial.
