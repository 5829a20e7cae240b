(** The main functions of the examples. *)
From Coq Require Import List Lia.
From Verif Require Import Bytes BytesFacts Utf8 Num Base64 Types World CallbackSpec WorldFacts Simple
  ScramParser Scram Session Registry Spec_Registry Proof_Registry ChannelBindings Apps Api DocLoop Mains Spec_Simple Spec_Session
  Spec_ScramText Spec_Scram MonadFacts Proof_Simple Proof_Session Proof_ScramText Proof_Scram
  Proof_ScramRun Proof_ScramMain Proof_ScramErrors Spec_Wire Proof_Wire Proof_ScramEnd Proof_Credentials Spec_Apps Proof_Apps Spec_Mains.
Import ListNotations.

Definition main_server (e : env) : psession :=
  psession_new (sasl_new (scram_main_config e) test_validation) SServer
    (Builtin (XScramS SHA256 (Some (SsClientFirst false)))) (DScram SHA256 false).
Definition main_client (user password : bytes) : psession :=
  psession_new (sasl_new (config_with_credentials None user password) 0) SClient
    (Builtin (XScramC SHA256 (Some (ScInitial ClientNoSupport)))) (DScram SHA256 false).

Lemma main_unfold e1 e2 user password n :
  scram_main e1 e2 user password n =
  match ps_step e1 (main_client user password) None [] with
  | Some (Ok _, out, client') => scram_main_loop e1 e2 client' (main_server e2) out n
  | _ => Some Panicked
  end.
Proof. reflexivity. Qed.

(** [p] is the session [s]. *)
Definition is_now (p : psession) (s : session) : psession :=
  mk_psession (mk_sasl (sa_config (ps_sasl p)) (sa_chan (ps_sasl p)) (sa_tag (ps_sasl p)) (s_val s))
    (ps_side p) (Builtin (s_mech s)) (ps_desc p) (s_trace s) (s_rng s).
Lemma step_now e p s input r out s' :
  step (ps_env e p) s input [] = (r, out, s') ->
  ps_step e (is_now p s) input [] = Some (r, out, is_now p s').
Proof.
  intros E. unfold ps_step, is_now at 1. cbn [ps_mechanism].
  change (ps_env e (is_now p s)) with (ps_env e p).
  unfold is_now. cbn [ps_trace ps_rng ps_sasl sa_validation].
  destruct s as [m tr n v]. cbn [s_mech s_trace s_rng s_val]. rewrite E. reflexivity.
Qed.

Definition sc0 : session := mk_session (XScramC SHA256 (Some (ScInitial ClientNoSupport))) [] 0 None.
Definition ss0 : session := mk_session (XScramS SHA256 (Some (SsClientFirst false))) [] 0 None.

Lemma server_env e : ps_env e (main_server e)
  = server_scram (ps_env e (main_server e)) (lit "SCRAM-SHA-256").
Proof. reflexivity. Qed.

Lemma client_facts e user password :
  let ec := ps_env e (main_client user password) in
  provides ec PAuthId user /\ withholds ec PAuthzId /\
  (forall a salt n, gives_keys ec a password salt n).
Proof.
  intros ec.
  assert (Hcb : forall tr x k, e_cb ec tr (e_sd ec) x k = credentials_cb None user password)
    by reflexivity.
  assert (W : forall q, q <> PAuthId -> q <> PPassword -> withholds ec q).
  { intros q N1 N2 tr x. rewrite Hcb. split; [cbn; auto|]. left.
    unfold credentials_cb. cbn [answer]. destruct q; try congruence; reflexivity. }
  split; [apply (cred_authid ec None _ password Hcb)|]. split; [apply W; discriminate|].
  intros a salt n. right; right. split; [apply W; discriminate|]. split; [apply W; discriminate|].
  apply (cred_password ec None user _ Hcb).
Qed.

(** Two rounds. *)
Lemma main_rounds e1 e2 user password n m1 m2 m3 m4 sc1 sc2 sc3 ss1 ss2 r o b st1 :
  2 <= n ->
  step (ps_env e1 (main_client user password)) sc0 None [] = (Ok st1, m1, sc1) ->
  step (ps_env e2 (main_server e2)) ss0 (Some m1) [] = (Ok Running, m2, ss1) ->
  step (ps_env e1 (main_client user password)) sc1 (Some m2) [] = (Ok Running, m3, sc2) ->
  step (ps_env e2 (main_server e2)) ss1 (Some m3) [] = (Ok (Finished b), m4, ss2) ->
  step (ps_env e1 (main_client user password)) sc2 (Some m4) [] = (r, o, sc3) ->
  scram_main e1 e2 user password n
  = Some (match r with Ok _ => Printed (s_val ss2) | _ => Panicked end).
Proof.
  intros Hn E1 E2 E3 E4 E5. rewrite main_unfold.
  apply step_now in E1, E2, E3, E4, E5.
  change (is_now (main_client user password) sc0) with (main_client user password) in E1.
  change (is_now (main_server e2) ss0) with (main_server e2) in E2.
  rewrite E1. destruct n as [|[|n]]; [lia|lia|].
  cbn [scram_main_loop]. rewrite E2, E3. cbn [is_running]. rewrite E4, E5. destruct r; reflexivity.
Qed.

Lemma main_known e1 e2 password n :
  2 <= n -> crypto_ok e2 -> same_crypto e1 e2 ->
  (passes e1 e2 password ->
    scram_main e1 e2 (lit "username") password n
    = Some (Printed (Some (verdict_value (Accepted (lit "username")))))) /\
  (~ passes e1 e2 password -> scram_main e1 e2 (lit "username") password n = Some Panicked).
Proof.
  intros Hn Hc Hs.
  destruct (client_facts e1 (lit "username") password) as [P1 [P2 P3]].
  destruct (scram_outcomes (ps_env e1 (main_client (lit "username") password))
    (ps_env e2 (main_server e2)) sc0 ss0 SHA256 ClientNoSupport
    false None CbNotSupported [] (lit "username") (lit "username") None None password
    (scram_app_stored e2))
    as [m1 [m2 [m3 [m4 [sc1 [sc2 [r [sc3 [ss1 [ss2 [evs [E1 [E2 [E3 [E4 [E5 [M1 [N H]]]]]]]]]]]]]]]]]].
  { reflexivity. } { reflexivity. } { exact Hc. } { exact Hs. } { split; reflexivity. }
  { reflexivity. } { exact I. } { discriminate. } { exact P1. } { reflexivity. } { reflexivity. }
  { exact P2. } { reflexivity. } { discriminate. }
  { exact (scram_app_looks (ps_env e2 (main_server e2)) (lit "SCRAM-SHA-256") None). }
  { destruct Hc as [Hh [Hm Hp]]. split; [apply Hh|apply Hm]. }
  { split; vm_compute; discriminate. } { apply P3. }
  { exact (scram_app_validates (ps_env e2 (main_server e2)) (lit "SCRAM-SHA-256") None). }
  rewrite (main_rounds _ _ _ _ _ _ _ _ _ _ _ _ _ _ _ _ _ _ Hn E1 E2 E3 E4 E5).
  change (exchange_message _ _ _ _ _ _) with (main_message e1 e2) in H.
  destruct H as [[Hf [[x [V O]] Hr]]|[Hf [_ [_ [_ ->]]]]].
  - assert (W : s_val ss2 = Some (verdict_value (Accepted (lit "username")))).
    { destruct (validation_first _ ss0 ss2 (s_val ss2) eq_refl
        (ca_step _ _ _ _ _ _ _ _ E2 (ca_step _ _ _ _ _ _ _ _ E4 (ca_nil _ _)))) as [evs' [N' F]].
      assert (evs' = evs) as -> by (unfold new_events in *; rewrite N in N'; apply app_inv_head in N'; auto).
      destruct (first_of_single _ _ _ _ _ (proj2 F eq_refl) V) as [tr P].
      rewrite (with_produces (ps_env e2 (main_server e2)) tr x (scram_app_validate x) (s_val ss2)).
      - rewrite (scram_verdict _ _ O). reflexivity.
      - reflexivity.
      - exact P. }
    rewrite W. destruct Hr as [[Hs1 ->]|[Hs1 ->]].
    + split; [reflexivity|]. intros K. destruct K. split; [exact Hf|exact Hs1].
    + split; [|reflexivity]. intros [_ K]. contradiction.
  - split; [|reflexivity]. intros [K _]. contradiction.
Qed.

Lemma passes_right e1 e2 : crypto_ok e2 -> passes e1 e2 (lit "secret").
Proof.
  intros Hc. split; [|reflexivity]. unfold proves, client_proof.
  rewrite <- !xor_zip_text, xor_zip_cancel; [reflexivity|].
  destruct Hc as [Hh [Hm Hp]]. unfold client_key_of. rewrite !Hm. reflexivity.
Qed.

Lemma escape_username user : escape user = Ok (lit "username") -> user = lit "username".
Proof.
  intros E. apply escape_flat in E. destruct E as [_ [_ E]].
  pose proof (unescape_flat user) as K. rewrite <- E in K. cbn in K. injection K as K. auto.
Qed.

Lemma client_stuck e user password st out s' :
  ps_step e (main_client user password) None [] = Some (Ok st, out, s') -> exists x, escape user = Ok x.
Proof.
  intros H. destruct (escape user) as [x|x|] eqn:E; [eauto| |]; exfalso; revert H;
    lazy -[escape]; rewrite E; discriminate.
Qed.

Lemma main_other e1 e2 user password n :
  2 <= n -> crypto_ok e1 -> utf8_valid user = true -> user <> lit "username" ->
  scram_main e1 e2 user password n = Some Panicked.
Proof.
  intros Hn Hc Vu Hne.
  destruct (escape user) as [name|x|] eqn:Eu.
  2,3: rewrite main_unfold;
    destruct (ps_step e1 (main_client user password) None []) as [[[[st|y|] out] s']|] eqn:E; try reflexivity;
    destruct (client_stuck _ _ _ _ _ _ E) as [y K]; congruence.
  assert (Hn' : name <> lit "username").
  { intros ->. apply Hne, escape_username, Eu. }
  destruct (client_facts e1 user password) as [P1 [P2 P3]].
  destruct (scram_unknown (ps_env e1 (main_client user password)) (ps_env e2 (main_server e2)) sc0 ss0
    SHA256 ClientNoSupport false None CbNotSupported [] user name None None password)
    as [m1 [m2 [m3 [sc1 [sc2 [sc3 [ss1 [ss2 [evs [E1 [E2 [E3 [E4 [E5 _]]]]]]]]]]]]]].
  { reflexivity. } { reflexivity. } { exact Hc. } { split; reflexivity. }
  { reflexivity. } { exact I. } { discriminate. } { exact P1. } { exact Eu. } { exact Vu. }
  { exact P2. } { reflexivity. } { discriminate. }
  { intros tr c [Hu _]. split; [exact (scram_app_polite (ps_env e2 (main_server e2)) (lit "SCRAM-SHA-256") _ _ _)|]. left.
    cbn. unfold scram_app_cb. rewrite Hu. destruct (bytes_eqb name (lit "username")) eqn:E; [|reflexivity].
    apply bytes_eqb_eq in E. contradiction. }
  { apply P3. }
  rewrite (main_rounds _ _ _ _ _ _ _ _ _ _ _ _ _ _ _ _ _ _ Hn E1 E2 E3 E4 E5). reflexivity.
Qed.

(** More rounds than needed change nothing. *)
Lemma loop_more e1 e2 k : forall n client server out x,
  scram_main_loop e1 e2 client server out n = Some x ->
  scram_main_loop e1 e2 client server out (n + k) = Some x.
Proof.
  induction n as [|n IH]; intros client server out x; [discriminate|]. cbn [scram_main_loop Nat.add].
  destruct (ps_step e2 server (Some out) []) as [[[[st|y|] o2] server']|]; try (intros H; exact H).
  destruct (ps_step e1 client (Some o2) []) as [[[[st'|y|] o1] client']|]; try (intros H; exact H).
  destruct (is_running st); [apply IH|intros H; exact H].
Qed.
Lemma main_more e1 e2 user password n k x :
  scram_main e1 e2 user password n = Some x -> scram_main e1 e2 user password (n + k) = Some x.
Proof.
  rewrite !main_unfold.
  destruct (ps_step e1 (main_client user password) None []) as [[[[st|y|] o] c]|]; try (intros H; exact H).
  apply loop_more.
Qed.

Lemma crypto_same e1 e2 : crypto_ok e2 -> same_crypto e1 e2 -> crypto_ok e1.
Proof.
  intros [Hh [Hm Hp]] [Sh [Sm Sp]].
  split; [intros; rewrite Sh; apply Hh|]. split; intros; [rewrite Sm; apply Hm|rewrite Sp; apply Hp].
Qed.

Lemma main_printed e1 e2 user password n v :
  crypto_ok e2 -> same_crypto e1 e2 -> utf8_valid user = true ->
  scram_main e1 e2 user password n = Some (Printed v) ->
  user = lit "username" /\ v = Some (verdict_value (Accepted (lit "username"))).
Proof.
  intros Hc Hs Vu H. apply (main_more _ _ _ _ _ 2) in H.
  assert (L : 2 <= n + 2) by lia.
  destruct (list_eq_dec Ascii.ascii_dec user (lit "username")) as [->|Ne].
  - destruct (main_known e1 e2 password _ L Hc Hs) as [A B]. split; [reflexivity|].
    rewrite H in A, B. clear H.
    assert (D : ~ ~ passes e1 e2 password) by (intros K; specialize (B K); discriminate).
    destruct v as [v|].
    + f_equal. destruct (list_eq_dec Ascii.ascii_dec v (verdict_value (Accepted (lit "username")))) as [E|E]; [exact E|].
      exfalso. apply D. intros K. specialize (A K). injection A as A. contradiction.
    + exfalso. apply D. intros K. specialize (A K). discriminate.
  - rewrite (main_other e1 e2 user password _ L (crypto_same _ _ Hc Hs) Vu Ne) in H. discriminate.
Qed.

Lemma main_exact e1 e2 user password n :
  2 <= n -> crypto_ok e2 -> same_crypto e1 e2 -> utf8_valid user = true ->
  (user = lit "username" -> passes e1 e2 password ->
     scram_main e1 e2 user password n
     = Some (Printed (Some (verdict_value (Accepted (lit "username")))))) /\
  (user <> lit "username" \/ ~ passes e1 e2 password ->
     scram_main e1 e2 user password n = Some Panicked).
Proof.
  intros Hn Hc Hs Vu. destruct (list_eq_dec Ascii.ascii_dec user (lit "username")) as [->|Ne].
  - destruct (main_known e1 e2 password n Hn Hc Hs) as [A B].
    split; [intros _; exact A|]. intros [K|K]; [contradiction|exact (B K)].
  - split; [intros K; contradiction|]. intros _.
    exact (main_other e1 e2 user password n Hn (crypto_same _ _ Hc Hs) Vu Ne).
Qed.

Lemma main_right e1 e2 n :
  2 <= n -> crypto_ok e2 -> same_crypto e1 e2 ->
  scram_main e1 e2 (lit "username") (lit "secret") n
  = Some (Printed (Some (verdict_value (Accepted (lit "username"))))).
Proof.
  intros Hn Hc Hs. exact (proj1 (main_known e1 e2 (lit "secret") n Hn Hc Hs) (passes_right e1 e2 Hc)).
Qed.

(** ** server_plain.rs *)

Definition plain_session : psession :=
  psession_new (sasl_new plain_main_config test_validation) SServer (Builtin XPlainS) DPlain.
Lemma plain_env e : ps_env e plain_session = server_plain (ps_env e plain_session).
Proof. reflexivity. Qed.

(** An exchange. *)
Definition judged (expected : expectation) (o : option (res serr state * bytes * psession)) : ended unit :=
  match o with
  | Some (Ok (Finished false), _, session') =>
      match expected with
      | Some v =>
          match ps_validation session' with
          | Some x => if bytes_eqb x (verdict_value v) then Printed tt else Panicked
          | None => Panicked
          end
      | None => Panicked
      end
  | Some (Err x, _, _) =>
      match expected with
      | Some _ => Panicked
      | None => if is_mechanism_error x then Printed tt else Panicked
      end
  | _ => Panicked
  end.
Lemma exchange_judged e message expected :
  plain_exchange e message expected = judged expected (ps_step e plain_session (Some message) []).
Proof. reflexivity. Qed.
Lemma exchange_exact e message expected :
  (exists z a p v, plain_accepts e message z a p /\ (z <> [] -> plain_policy z a p v) /\
     (z = [] -> v = AuthzBad) /\ (plain_exchange e message expected = Printed tt <-> expected = Some v)) \/
  ((forall z a p, ~ plain_accepts e message z a p) /\
     (plain_exchange e message expected = Printed tt <-> expected = None)).
Proof.
  set (s0 := mk_session XPlainS [] 0 None).
  destruct (step (ps_env e plain_session) s0 (Some message) []) as [[r out] s'] eqn:E.
  rewrite exchange_judged. change plain_session with (is_now plain_session s0).
  rewrite (step_now _ _ _ _ _ _ _ E). rewrite plain_env in E.
  destruct (plain_app_exact (ps_env e plain_session) s0 _ _ _ _ _ eq_refl eq_refl E) as [_ [[z [a [p [v [A [-> [R [B C]]]]]]]]|[A [V [x ->]]]]].
  - left. exists z, a, p, v. split; [exact A|]. split; [exact B|]. split; [exact C|].
    unfold judged, ps_validation, is_now. cbn [ps_sasl sa_validation]. unfold reached in R. rewrite R.
    destruct expected as [w|]; [|split; discriminate].
    destruct (bytes_eqb (verdict_value v) (verdict_value w)) eqn:K.
    + apply bytes_eqb_eq, verdict_value_inj in K. subst w. split; reflexivity.
    + split; [discriminate|]. intros [= ->]. rewrite bytes_eqb_refl in K. discriminate.
  - right. split; [exact A|]. destruct expected; cbn [judged is_mechanism_error]; split; (discriminate || reflexivity).
Qed.

(** Without authorization identity. *)
Lemma exchange_no_authzid e rest v : v <> AuthzBad -> plain_exchange e (nul :: rest) (Some v) = Panicked.
Proof.
  intros Hv. destruct (plain_exchange e (nul :: rest) (Some v)) as [[]|] eqn:E; [|reflexivity]. exfalso.
  destruct (exchange_exact e (nul :: rest) (Some v)) as [[z [a [p [w [A [_ [C D]]]]]]]|[_ D]];
    apply D in E; [|discriminate].
  injection E as <-. apply Hv, C. destruct A as [a0 [p0 [M [_ [Z _]]]]].
  destruct z as [|b z]; [reflexivity|]. exfalso. apply Z. unfold plain_message in M. cbn in M.
  injection M as <- _. left. reflexivity.
Qed.

Lemma plain_main_panics e : plain_main e = Panicked.
Proof.
  unfold plain_main, plain_main_cases. cbn [plain_main_from].
  rewrite exchange_no_authzid by discriminate. reflexivity.
Qed.

(** ** client_simple.rs *)

Definition simple_session (user password : bytes) : psession :=
  psession_new (sasl_new (config_with_credentials None user password) 0) SClient (Builtin XPlainC) DPlain.
Lemma client_main_unfold e user password : client_main e user password =
  match ps_step e (simple_session user password) None [] with
  | Some (Ok (Finished true), out, _) => Printed out
  | _ => Panicked
  end.
Proof. reflexivity. Qed.

Lemma client_main_prints e user password :
  user <> [] -> password <> [] -> nul_free user -> nul_free password ->
  client_main e user password = Printed (plain_message [] user password).
Proof.
  intros Hu Hp Nu Np. rewrite client_main_unfold.
  set (ec := ps_env e (simple_session user password)).
  assert (Hcb : forall tr x k, e_cb ec tr (e_sd ec) x k = credentials_cb None user password)
    by reflexivity.
  destruct (plain_client_complete ec (mk_session XPlainC [] 0 None) None None user password)
    as [s' E]; auto.
  - apply (cred_authid ec None _ password Hcb).
  - apply (cred_password ec None user _ Hcb).
  - apply (cred_no_authzid ec None _ _ Hcb eq_refl).
  - discriminate.
  - apply step_now in E. change (is_now _ (mk_session XPlainC [] 0 None)) with (simple_session user password) in E.
    rewrite E. reflexivity.
Qed.

Lemma client_main_panics e user password :
  user = [] \/ password = [] \/ In nul user \/ In nul password ->
  client_main e user password = Panicked.
Proof.
  intros H. rewrite client_main_unfold. set (ec := ps_env e (simple_session user password)).
  set (s0 := mk_session XPlainC [] 0 None).
  destruct (step ec s0 None []) as [[r out] s'] eqn:E.
  change (simple_session user password) with (is_now (simple_session user password) s0).
  rewrite (step_now _ _ _ _ _ _ _ E). destruct r as [st|x|]; try reflexivity. exfalso.
  destruct (plain_client_any ec s0 None [] st out s' eq_refl E)
    as [evs [z [a [p [N [_ [_ [A1 [A2 [_ [A3 [A4 [A5 [A6 _]]]]]]]]]]]]]].
  assert (P : polite ec) by (intros tr c k; cbn; auto).
  assert (Ea : a = user).
  { destruct (answers_told ec s0 None [] _ _ _ _ PAuthId a P E N) as [tr [c [_ K]]].
    - rewrite A5. left. reflexivity.
    - cbn in K. injection K as K. auto. }
  assert (Ep : p = password).
  { destruct (answers_told ec s0 None [] _ _ _ _ PPassword p P E N) as [tr [c [_ K]]].
    - rewrite A6. left. reflexivity.
    - cbn in K. injection K as K. auto. }
  subst a p. destruct H as [H|[H|[H|H]]]; contradiction.
Qed.

Lemma client_main_exact e user password out :
  client_main e user password = Printed out <->
  (user <> [] /\ password <> [] /\ nul_free user /\ nul_free password) /\
  out = plain_message [] user password.
Proof.
  split.
  - intros H. 
    assert (K : ~ (user = [] \/ password = [] \/ In nul user \/ In nul password)).
    { intros K. rewrite (client_main_panics _ _ _ K) in H. discriminate. }
    assert (A : user <> [] /\ password <> [] /\ nul_free user /\ nul_free password).
    { unfold nul_free. repeat split; intros X; apply K; auto. }
    split; [exact A|]. destruct A as [A1 [A2 [A3 A4]]].
    rewrite client_main_prints in H by assumption. injection H as <-. reflexivity.
  - intros [[A1 [A2 [A3 A4]]] ->]. apply client_main_prints; assumption.
Qed.

(** ** mechanism_selection.rs *)

Lemma selection_exact presented expected :
  In (lit "SCRAM-SHA-256") presented ->
  selection_main presented expected
  = if bytes_eqb (lit "SCRAM-SHA-256") expected then Printed (lit "SCRAM-SHA-256") else Panicked.
Proof.
  intros Hp. unfold selection_main, client_start_suggested, select_mechanism, config_select.
  change (registry_select _ _ presented _)
    with (client_start (credentials_registry false) false default_prefer presented).
  destruct (client_start (credentials_registry false) false default_prefer presented) as [[i d]|x|] eqn:E.
  - destruct (credentials_prefer _ _ _ E) as [before [aft [Eo [_ F]]]].
    assert (d = DScram SHA256 false) as ->.
    { destruct before as [|b before]; cbn in Eo; injection Eo as <- _; [reflexivity|].
      inversion F. contradiction. }
    reflexivity.
  - exfalso. eapply (proj1 (default_none (credentials_registry false) false presented)).
    + eauto.
    + instantiate (1 := DScram SHA256 false). cbn. auto.
    + exists (lit "SCRAM-SHA-256"). split; [exact Hp|left; reflexivity].
  - exfalso. revert E. apply builtin_no_panic. repeat constructor.
Qed.
