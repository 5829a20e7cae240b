(** The interop programs. *)
From Coq Require Import List Lia ZArith ZifyN ZifyBool.
From Verif Require Import Bytes BytesFacts Utf8 Utf8Facts Num Base64 Base64Facts Mechname Types World
  CallbackSpec WorldFacts Simple OAuth ScramParser Scram Gssapi Session Registry Spec_Registry Apps
  Spec_Simple Spec_Session Spec_ScramText Spec_Scram MonadFacts Proof_Simple Proof_Session
  Spec_Errors Proof_Errors Proof_Scram Spec_Wire Proof_Wire Proof_ScramMain Proof_ScramEnd Proof_Credentials Proof_Apps Interop Spec_Net Spec_Interop
  Proof_Net Proof_ScramText Proof_ScramRun Proof_ScramErrors Proof_Registry.
Open Scope m_scope.

(** * Lines and words *)

Lemma cut_line_at l r : ~ In newline l -> cut_line (l ++ newline :: r) = Some (l, r).
Proof.
  induction l as [|c l IH]; intros H.
  - cbn [cut_line app]. replace (beq newline newline) with true by reflexivity. reflexivity.
  - cbn [cut_line app]. destruct (beq c newline) eqn:E.
    + exfalso. apply H. left. apply beq_eq in E. exact E.
    + rewrite IH; [reflexivity|]. intros K. apply H. right. exact K.
Qed.
Lemma drop_cr_none (l : bytes) : ~ In (chr 13) l -> drop_cr l = l.
Proof.
  intros H. unfold drop_cr.
  match goal with |- match ?t with _ => _ end = _ => destruct t as [|c r] eqn:E end.
  - apply (f_equal (@rev ascii)) in E. rewrite rev_involutive in E. symmetry. exact E.
  - destruct (beq c (chr 13)) eqn:Eb; [|reflexivity]. exfalso. apply H. apply beq_eq in Eb. subst c.
    apply (in_rev l). change byte with ascii. rewrite E. left. reflexivity.
Qed.

Lemma take_text closed l r : one_line l -> take_line closed (l ++ newline :: r) = Some (LText l, r).
Proof.
  intros [H1 [H2 H3]]. unfold take_line. rewrite (cut_line_at _ _ H1), (drop_cr_none _ H2).
  unfold line_of. rewrite H3. reflexivity.
Qed.

(** Bytes that are neither whitespace nor outside ASCII. *)
Definition solid (b : byte) : bool := in_range 33 126 b.
Lemma solid_ws c r : solid c = true -> ws_len (c :: r) = 0.
Proof.
  intros H. unfold solid, in_range in H. unfold ws_len. cbn [map].
  destruct c as [b0 b1 b2 b3 b4 b5 b6 b7].
  destruct b0, b1, b2, b3, b4, b5, b6, b7; try discriminate H; reflexivity.
Qed.
Lemma words_solid cur l : forallb solid l = true -> words_from cur 0 l = flush (cur ++ l).
Proof.
  revert cur. induction l as [|c l IH]; intros cur H.
  - rewrite app_nil_r. reflexivity.
  - cbn [forallb] in H. apply andb_prop in H. destruct H as [Hc Hl].
    cbn [words_from]. rewrite (solid_ws _ _ Hc), (IH _ Hl), <- app_assoc. reflexivity.
Qed.
Lemma words_space cur a b : forallb solid a = true ->
  words_from cur 0 (a ++ " "%char :: b) = flush (cur ++ a) ++ words_from [] 0 b.
Proof.
  revert cur. induction a as [|c a IH]; intros cur H.
  - rewrite app_nil_r. reflexivity.
  - cbn [forallb] in H. apply andb_prop in H. destruct H as [Hc Hl].
    cbn [words_from app]. rewrite (solid_ws _ _ Hc), (IH _ Hl), <- app_assoc. reflexivity.
Qed.
Lemma words_two a b : forallb solid a = true -> forallb solid b = true -> a <> [] ->
  words (a ++ lit " " ++ b) = a :: flush b.
Proof.
  intros Ha Hb Hn. unfold words. change (lit " " ++ b) with (" "%char :: b).
  rewrite (words_space _ _ _ Ha), (words_solid _ _ Hb). destruct a; [congruence|reflexivity].
Qed.
Lemma words_one a : forallb solid a = true -> a <> [] -> words a = [a].
Proof.
  intros Ha Hn. unfold words. rewrite (words_solid _ _ Ha). destruct a; [congruence|reflexivity].
Qed.

Lemma b64_solid c : b64_char c = true -> solid c = true.
Proof.
  unfold b64_char, solid, in_range, beq. intros H.
  destruct c as [b0 b1 b2 b3 b4 b5 b6 b7].
  destruct b0, b1, b2, b3, b4, b5, b6, b7; try discriminate H; reflexivity.
Qed.
Lemma encode_solid b : forallb solid (encode b) = true.
Proof.
  apply forallb_forall. intros c Hc. apply b64_solid.
  pose proof (encode_chars b) as H. rewrite forallb_forall in H. auto.
Qed.
Lemma solid_line l : forallb solid l = true -> one_line l.
Proof.
  intros H. rewrite forallb_forall in H. split; [|split].
  - intros K. apply H in K. discriminate K.
  - intros K. apply H in K. discriminate K.
  - apply utf8_ascii, forallb_forall. intros c Hc. apply H in Hc.
    unfold solid, in_range in Hc. unfold is_ascii, in_range. lia.
Qed.
Lemma line_app a b : one_line a -> one_line b -> one_line (a ++ b).
Proof.
  intros [A1 [A2 A3]] [B1 [B2 B3]]. split; [|split].
  - intros K. apply in_app_or in K. tauto.
  - intros K. apply in_app_or in K. tauto.
  - rewrite utf8_app; assumption.
Qed.
Lemma encode_line b : one_line (encode b).
Proof. apply solid_line, encode_solid. Qed.

(** * Runs of the test client against the server *)

Ltac lw := eapply NStep; [eapply NLeftWrite; reflexivity|].
Ltac rw := eapply NStep; [eapply NRightWrite; reflexivity|].
Ltac ll t := eapply NStep; [eapply NLeftLine; [reflexivity|t]|cbv beta iota].
Ltac rl t := eapply NStep; [eapply NRightLine; [reflexivity|t]|cbv beta iota].

Definition listed (reg : list mechanism) (l0 : bytes) : Prop := mechs_line reg = l0 ++ nl /\ one_line l0.

Lemma take_first closed (mech : bytes) m : forallb solid mech = true ->
  take_line closed ((([] ++ mech) ++ lit " " ++ encode m) ++ nl)
    = Some (LText (mech ++ lit " " ++ encode m), []).
Proof.
  intros H. rewrite app_nil_l. apply take_text.
  apply line_app; [apply solid_line; exact H|]. apply line_app; [|apply encode_line].
  split; [|split]; [intros [K|[]]; discriminate|intros [K|[]]; discriminate|reflexivity].
Qed.

Lemma run_one e1 a1 e2 a2 show (mech : bytes) c l0 (m o : bytes) :
  listed (ap_registry a2) l0 -> forallb solid mech = true ->
  tc_mechs e1 a1 mech (LText l0) = TcWrite mech (tc_initial c) ->
  tc_initial c = TcWrite (lit " " ++ encode m) (TcWrite nl TcOutcome) ->
  sv_select e2 a2 show (LText (mech ++ lit " " ++ encode m)) = SvWrite (o ++ nl) (SvEnd SvOk) ->
  one_line o ->
  always_end (test_client e1 a1 mech) (handle_client e2 a2 show) TcMechs SvMechs (TcReturned o) SvOk [] [].
Proof.
  intros [M1 M2] Hs T1 T2 V Ho. eapply always_end_by.
  - rw. rewrite M1. cbn [app].
    ll ltac:(apply take_text; exact M2). rewrite T1, T2. lw. lw. lw.
    rl ltac:(apply take_first; exact Hs).
    rewrite V. rw. cbn [app]. ll ltac:(apply take_text; exact Ho). apply NRefl.
  - repeat split.
Qed.

(** A client with nothing to send first, and three lines of the server. *)
Lemma run_login e1 a1 e2 a2 show (mech : bytes) c c1 c2 l0 p1 m1 p2 m2 v1 v2 (o : bytes) :
  listed (ap_registry a2) l0 -> forallb solid mech = true ->
  tc_mechs e1 a1 mech (LText l0) = TcWrite mech (tc_initial c) ->
  tc_initial c = TcWrite nl (TcRead c) ->
  sv_select e2 a2 show (LText mech) = SvWrite (encode p1 ++ nl) (SvRead v1) ->
  tc_round c (LText (encode p1)) = TcWrite (encode m1 ++ nl) (TcRead c1) ->
  sv_step show v1 (Some (encode m1)) = SvWrite (encode p2 ++ nl) (SvRead v2) ->
  tc_round c1 (LText (encode p2)) = TcWrite (encode m2 ++ nl) c2 -> c2 = TcOutcome ->
  sv_step show v2 (Some (encode m2)) = SvWrite (o ++ nl) (SvEnd SvOk) ->
  one_line o ->
  always_end (test_client e1 a1 mech) (handle_client e2 a2 show) TcMechs SvMechs (TcReturned o) SvOk [] [].
Proof.
  intros [M1 M2] Hs T1 T2 V0 R1 V1 R2 -> V2 Ho. eapply always_end_by.
  - rw. rewrite M1. cbn [app].
    ll ltac:(apply take_text; exact M2). rewrite T1, T2. lw. lw. cbn [app].
    rl ltac:(apply take_text, solid_line; exact Hs).
    rewrite V0. rw. cbn [app]. ll ltac:(apply take_text, encode_line).
    rewrite R1. lw. cbn [app]. rl ltac:(apply take_text, encode_line).
    rewrite V1. rw. cbn [app]. ll ltac:(apply take_text, encode_line).
    rewrite R2. lw. cbn [app]. rl ltac:(apply take_text, encode_line).
    rewrite V2. rw. cbn [app]. ll ltac:(apply take_text; exact Ho). apply NRefl.
  - repeat split.
Qed.

Lemma run_scram e1 a1 e2 a2 show (mech : bytes) c c1 c2 l0 m1 m2 m3 m4 v1 (o : bytes) :
  listed (ap_registry a2) l0 -> forallb solid mech = true ->
  tc_mechs e1 a1 mech (LText l0) = TcWrite mech (tc_initial c) ->
  tc_initial c = TcWrite (lit " " ++ encode m1) (TcWrite nl (TcRead c1)) ->
  sv_select e2 a2 show (LText (mech ++ lit " " ++ encode m1)) = SvWrite (encode m2 ++ nl) (SvRead v1) ->
  tc_round c1 (LText (encode m2)) = TcWrite (encode m3 ++ nl) (TcRead c2) ->
  sv_step show v1 (Some (encode m3))
    = SvWrite (encode m4 ++ nl) (SvWrite (o ++ nl) (SvEnd SvOk)) ->
  tc_round c2 (LText (encode m4)) = TcWrite (lit "-" ++ nl) TcOutcome ->
  one_line o ->
  always_end (test_client e1 a1 mech) (handle_client e2 a2 show) TcMechs SvMechs (TcReturned o) SvOk [] (lit "-" ++ nl).
Proof.
  intros [M1 M2] Hs T1 T2 V0 R1 V1 R2 Ho. eapply always_end_by.
  - rw. rewrite M1. cbn [app].
    ll ltac:(apply take_text; exact M2). rewrite T1, T2. lw. lw. lw.
    rl ltac:(apply take_first; exact Hs).
    rewrite V0. rw. cbn [app]. ll ltac:(apply take_text, encode_line).
    rewrite R1. lw. cbn [app]. rl ltac:(apply take_text, encode_line).
    rewrite V1. rw. cbn [app]. rw. rewrite <- (app_assoc (encode m4)).
    ll ltac:(apply take_text, encode_line). rewrite R2. lw. cbn [app].
    ll ltac:(apply take_text; exact Ho). apply NRefl.
  - repeat split.
Qed.

Lemma run_refused e1 a1 e2 a2 show (mech : bytes) c c1 c2 l0 m1 m2 m3 m4 v1 (o : bytes) :
  listed (ap_registry a2) l0 -> forallb solid mech = true ->
  tc_mechs e1 a1 mech (LText l0) = TcWrite mech (tc_initial c) ->
  tc_initial c = TcWrite (lit " " ++ encode m1) (TcWrite nl (TcRead c1)) ->
  sv_select e2 a2 show (LText (mech ++ lit " " ++ encode m1)) = SvWrite (encode m2 ++ nl) (SvRead v1) ->
  tc_round c1 (LText (encode m2)) = TcWrite (encode m3 ++ nl) (TcRead c2) ->
  sv_step show v1 (Some (encode m3))
    = SvWrite (encode m4 ++ nl) (SvWrite (o ++ nl) (SvEnd SvOk)) ->
  tc_round c2 (LText (encode m4)) = TcEnd TcPanicked ->
  always_end (test_client e1 a1 mech) (handle_client e2 a2 show) TcMechs SvMechs TcPanicked SvOk (o ++ nl) [].
Proof.
  intros [M1 M2] Hs T1 T2 V0 R1 V1 R2. eapply always_end_by.
  - rw. rewrite M1. cbn [app].
    ll ltac:(apply take_text; exact M2). rewrite T1, T2. lw. lw. lw.
    rl ltac:(apply take_first; exact Hs).
    rewrite V0. rw. cbn [app]. ll ltac:(apply take_text, encode_line).
    rewrite R1. lw. cbn [app]. rl ltac:(apply take_text, encode_line).
    rewrite V1. rw. cbn [app]. rw. rewrite <- (app_assoc (encode m4)).
    ll ltac:(apply take_text, encode_line). rewrite R2. apply NRefl.
  - repeat split.
Qed.

(** * PLAIN, LOGIN and SCRAM *)

Lemma printable_line l : forallb (in_range 32 126) l = true -> one_line l.
Proof.
  intros H. rewrite forallb_forall in H. split; [|split].
  - intros K. apply H in K. discriminate K.
  - intros K. apply H in K. discriminate K.
  - apply utf8_ascii, forallb_forall. intros c Hc. apply H in Hc.
    unfold in_range in Hc. unfold is_ascii, in_range. lia.
Qed.

Definition builtin_line : bytes :=
  lit "SCRAM-SHA-512 SCRAM-SHA-256 SCRAM-SHA-1 PLAIN LOGIN ANONYMOUS EXTERNAL XOAUTH2 OAUTHBEARER ".
Lemma builtin_listed : listed builtin_registry builtin_line.
Proof. split; [reflexivity|]. apply printable_line. reflexivity. Qed.

(** The session of the client and that of the server. *)
Definition client_conn (e : env) (user password : bytes) (d : mechanism) (m : mech) : conn :=
  mk_conn (with_app e (mk_sdata (d_name d) SClient) (fun _ _ _ _ => credentials_cb None user password)
             (fun _ _ _ => VRet None)) d (mk_session m [] 0 None).
Definition server_conn (e : env) (vars : variables) (d : mechanism) (m : mech) : conn :=
  mk_conn (with_app e (mk_sdata (d_name d) SServer) (interop_server_cb vars) interop_vcb) d
    (mk_session m [] 0 None).

Lemma step_line_none e d s r out s' : step e s None [] = (r, out, s') ->
  step_line (mk_conn e d s) None = (r, encode out, mk_conn e d s').
Proof.
  intros H. unfold step_line. cbn [cn_env cn_session]. rewrite (step64_none _ _ _ _ _ H). reflexivity.
Qed.
Lemma step_line_some e d s i r out s' : step e s (Some i) [] = (r, out, s') ->
  step_line (mk_conn e d s) (Some (encode i)) = (r, encode out, mk_conn e d s').
Proof.
  intros H. unfold step_line. cbn [cn_env cn_session]. rewrite (step64_encoded _ _ _ _ _ _ H).
  reflexivity.
Qed.

Lemma finalize_produces e tr c x o :
  e_vcb e tr (e_sd e) c = VFinalize (e_vtag e) x (VRet None) ->
  produces e tr c o -> o = Some x.
Proof.
  intros E [cs [y [H1 [H2 ->]]]]. rewrite E in H1. inversion H1 as [|? ? ? cs0 ? H3| |]; subst.
  inversion H3; subst. cbn [first_final]. rewrite Nat.eqb_refl. reflexivity.
Qed.

Lemma outcome_text e d s v : s_val s = Some v -> outcome_line (mk_conn e d s) = (lit "OK " ++ v) ++ nl.
Proof.
  intros H. unfold outcome_line, validation. cbn [cn_session]. rewrite H. reflexivity.
Qed.

Lemma ok_line v : one_line v -> one_line (lit "OK " ++ v).
Proof. intros H. apply line_app; [apply printable_line; reflexivity|exact H]. Qed.

(** The server never refuses what it validates. *)
Lemma interop_validates d c slot tr :
  get_ref c PAuthId <> None ->
  (bytes_eqb (d_name d) (lit "PLAIN") || bytes_eqb (d_name d) (lit "LOGIN") = true -> get_ref c PPassword <> None) ->
  fst (run_validate test_validation (interop_vcb tr (mk_sdata (d_name d) SServer) c) slot) = None.
Proof.
  intros H1 H2. unfold interop_vcb. cbn [sd_mech].
  destruct (bytes_eqb (d_name d) (lit "PLAIN") || bytes_eqb (d_name d) (lit "LOGIN")).
  - destruct (get_ref c PAuthId); [|congruence].
    destruct (get_ref c PPassword); [|exfalso; apply H2; reflexivity]. destruct slot; reflexivity.
  - destruct (strip_prefix (lit "SCRAM-") (d_name d)); [|reflexivity].
    destruct (get_ref c PAuthId); [|congruence]. destruct slot; reflexivity.
Qed.

(** A step whose last action was a validation that the application did not refuse. *)
Lemma validated_ok e s i script r out s' c :
  step e s i script = (r, out, s') -> s_trace s' = [EvValidate c] -> validated r ->
  (forall tr slot, fst (run_validate (e_vtag e) (e_vcb e tr (e_sd e) c) slot) = None) ->
  r = Ok (Finished false).
Proof.
  intros H N [V|[x ->]] K; [exact V|]. exfalso.
  destruct (errors_caused _ _ _ _ _ _ _ H) as [evs [N' C]].
  assert (I : forall ev, In ev evs -> ev = EvValidate c).
  { intros ev Hi. unfold new_events in N'. rewrite N in N'.
    assert (J : In ev (s_trace s ++ evs)) by (apply in_or_app; auto). rewrite <- N' in J.
    destruct J as [J|[]]; auto. }
  inversion C as [? [evs1 [evs2 [q [c0 [[E _]|[v [E _]]]]]]] _| | | | | | | |evs1 c0 v slot E Q| |]; subst.
  - assert (J : EvRequest q c0 = EvValidate c) by (apply I, in_or_app; right; left; reflexivity). discriminate J.
  - assert (J : EvAction q v c0 = EvValidate c) by (apply I, in_or_app; right; left; reflexivity). discriminate J.
  - assert (J : EvValidate c0 = EvValidate c) by (apply I, in_or_app; right; left; reflexivity).
    injection J as ->. rewrite K in Q. discriminate Q.
Qed.


Lemma valid_line_line u z p : one_line u -> (forall x, z = Some x -> one_line x) ->
  (forall x, p = Some x -> one_line x) -> one_line (valid_line u z p).
Proof.
  intros Hu Hz Hp. unfold valid_line.
  apply line_app; [apply printable_line; reflexivity|]. apply line_app; [exact Hu|]. apply line_app.
  - destruct z as [x|]; [|apply printable_line; reflexivity].
    apply line_app; [apply printable_line; reflexivity|auto].
  - destruct p as [x|]; [|apply printable_line; reflexivity].
    apply line_app; [apply printable_line; reflexivity|auto].
Qed.
Lemma valid_line_eq u z p : (forall x, p = Some x -> utf8_valid x = true) ->
  lit "OK " ++ interop_validation u z p = valid_line u z p.
Proof.
  intros H. unfold interop_validation, valid_line. destruct p as [x|]; [|reflexivity].
  rewrite (H x eq_refl). reflexivity.
Qed.

Theorem plain_interop e1 e2 vars show user password u p :
  user <> [] -> password <> [] -> nul_free user -> nul_free password ->
  utf8_valid user = true -> utf8_valid password = true ->
  prepared e2 user u -> prepared e2 password p -> one_line u -> one_line p ->
  always_end (test_client e1 (credentials_app user password) (lit "PLAIN"))
    (handle_client e2 (interop_server_app vars) show)
    TcMechs SvMechs (TcReturned (valid_line u (Some []) (Some p))) SvOk [] [].
Proof.
  intros Hu Hp Nu Np Vu Vp Pu Pp Lu Lp.
  set (c := client_conn e1 user password DPlain XPlainC).
  set (ec := cn_env c).
  destruct (plain_client_complete ec (cn_session c) None None user password) as [c1 E1];
    try assumption; try reflexivity.
  { apply (cred_authid ec None user password). reflexivity. }
  { apply (cred_password ec None user password). reflexivity. }
  { apply (cred_no_authzid ec None user password); reflexivity. }
  { discriminate. }
  set (v := server_conn e2 vars DPlain XPlainS). set (es := cn_env v).
  set (msg := plain_message [] user password).
  assert (Acc : plain_accepts es msg [] u p).
  { exists user, password. split; [reflexivity|]. split.
    - unfold msg, plain_message. cbn [app length]. rewrite app_length. cbn [length].
      destruct user; [congruence|]. destruct password; [congruence|]. cbn [length]. lia.
    - split; [intros []|]. split; [exact Nu|]. split; [exact Np|]. split; [reflexivity|].
      split; [exact Vu|]. split; [exact Pu|]. unfold prepared_password. rewrite Vp. exact Pp. }
  destruct (step es (cn_session v) (Some msg) []) as [[r out] v1] eqn:E2.
  destruct (plain_server_exact _ _ _ _ _ _ _ (eq_refl : s_mech (cn_session v) = XPlainS) E2)
    as [-> [[z [a [q [ctx [A [N [O V]]]]]]]|[No _]]]; [|exfalso; exact (No _ _ _ Acc)].
  assert (z = [] /\ a = u /\ q = p) as [-> [-> ->]].
  { destruct A as [a0 [p0 [Em [_ [Z [Na [_ [_ [_ [[Pa _] Pq]]]]]]]]]].
    apply plain_message_inj in Em; [|intros []|assumption..]. destruct Em as [<- [<- <-]].
    unfold prepared_password in Pq. rewrite Vp in Pq. destruct Pu as [Pu _], Pp as [Pp _], Pq as [Pq _].
    change (e_saslprep es) with (e_saslprep e2) in *. repeat split; congruence. }
  assert (r = Ok (Finished false)) as ->.
  { apply (validated_ok _ _ _ _ _ _ _ _ E2 N V). intros tr slot.
    destruct O as [_ [O1 [O2 _]]]. apply (interop_validates DPlain); congruence. }
  assert (W : s_val v1 = Some (interop_validation u (Some []) (Some p))).
  { pose proof (step_value _ _ _ _ _ _ _ _ (eq_refl : s_val (cn_session v) = None) E2 N) as F.
    apply first_of_one in F. apply (finalize_produces es _ _ (interop_validation u (Some []) (Some p))) in F; [exact F|].
    destruct O as [O1 [O2 [O3 _]]].
    unfold es, v, server_conn, with_app. cbn [cn_env e_vcb e_sd e_vtag]. unfold interop_vcb.
    cbn [sd_mech d_name]. rewrite bytes_eqb_refl. cbn [orb]. rewrite O1, O2, O3. reflexivity. }
  eapply run_one with (c := c) (m := msg).
  - exact builtin_listed.
  - reflexivity.
  - reflexivity.
  - unfold tc_initial. replace (are_we_first SClient (cn_mech c)) with true by reflexivity.
    change c with (mk_conn ec DPlain (cn_session c)). rewrite (step_line_none _ _ _ _ _ _ E1). reflexivity.
  - unfold sv_select. rewrite words_two; [|reflexivity|apply encode_solid|discriminate].
    replace (flush (encode msg)) with [encode msg].
    2:{ destruct (encode msg) eqn:Ee; [|reflexivity]. exfalso.
        pose proof (decode_encode msg) as K. rewrite Ee in K. discriminate K. }
    change (sv_step show v (Some (encode msg)) = SvWrite (valid_line u (Some []) (Some p) ++ nl) (SvEnd SvOk)).
    unfold sv_step. change v with (mk_conn es DPlain (cn_session v)).
    rewrite (step_line_some _ _ _ _ _ _ _ E2). cbn [running sent_message].
    rewrite (outcome_text _ _ _ _ W), valid_line_eq; [reflexivity|].
    intros x [= <-]. apply Lp.
  - apply valid_line_line; [exact Lu|intros x [= <-]; apply printable_line; reflexivity|intros x [= <-]; exact Lp].
Qed.

Theorem login_interop e1 e2 vars show user password :
  one_line user -> one_line password ->
  always_end (test_client e1 (credentials_app user password) (lit "LOGIN"))
    (handle_client e2 (interop_server_app vars) show)
    TcMechs SvMechs (TcReturned (valid_line user None (Some password))) SvOk [] [].
Proof.
  intros Lu Lp.
  set (c := client_conn e1 user password DLogin (XLoginC LcAuthid)). set (ec := cn_env c).
  set (v := server_conn e2 vars DLogin (XLoginS LsNew)). set (es := cn_env v).
  destruct (login_exchange ec es (cn_session c) (cn_session v) user password eq_refl eq_refl)
    with (i0 := @None bytes) (i1 := Some (lit "User Name" ++ [nul])) (i2 := Some (lit "Password" ++ [nul]))
    as [s1 [s2 [c1 [c2 [E1 [E2 [E3 [E4 [E5 _]]]]]]]]].
  { apply (cred_authid ec None user password). reflexivity. }
  { apply (cred_password ec None user password). reflexivity. }
  { apply Lu. }
  specialize (E3 _ (idle_stop _ _)).
  destruct (step es s2 (Some password) []) as [[r out] s3] eqn:E6.
  destruct (E5 _ _ _ _ (idle_stop _ _) E6) as [x [N [O [-> [V _]]]]].
  assert (r = Ok (Finished false)) as ->.
  { apply (validated_ok _ _ _ _ _ _ _ _ E6 N V). intros tr slot.
    destruct O as [O1 [O2 _]]. apply (interop_validates DLogin); congruence. }
  assert (W : s_val s3 = Some (interop_validation user None (Some password))).
  { destruct (validation_first es (cn_session v) s3 (s_val s3) eq_refl) as [evs [N' F]].
    { eapply ca_step; [exact E1|]. eapply ca_step; [exact E3|]. eapply ca_step; [exact E6|apply ca_nil]. }
    assert (evs = [EvValidate x]) as ->
      by (unfold new_events in *; rewrite N in N'; apply app_inv_head in N'; auto).
    pose proof (first_of_one _ _ _ _ (proj2 F eq_refl)) as P.
    apply (finalize_produces es _ _ (interop_validation user None (Some password))) in P; [exact P|].
    destruct O as [O1 [O2 O3]].
    unfold es, v, server_conn, with_app. cbn [cn_env e_vcb e_sd e_vtag]. unfold interop_vcb.
    cbn [sd_mech d_name]. rewrite bytes_eqb_refl, orb_true_r. rewrite O1, O2, O3 by discriminate. reflexivity. }
  eapply run_login with (c := c) (c1 := mk_conn ec DLogin c1) (v1 := mk_conn es DLogin s1)
    (v2 := mk_conn es DLogin s2) (p1 := lit "User Name" ++ [nul]) (m1 := user)
    (p2 := lit "Password" ++ [nul]) (m2 := password).
  - exact builtin_listed.
  - reflexivity.
  - reflexivity.
  - reflexivity.
  - unfold sv_select. rewrite words_one; [|reflexivity|discriminate].
    change (sv_step show v None = SvWrite (encode (lit "User Name" ++ [nul]) ++ nl) (SvRead (mk_conn es DLogin s1))).
    unfold sv_step. change v with (mk_conn es DLogin (cn_session v)).
    rewrite (step_line_none _ _ _ _ _ _ E1). reflexivity.
  - unfold tc_round. change c with (mk_conn ec DLogin (cn_session c)).
    rewrite (step_line_some _ _ _ _ _ _ _ E2). reflexivity.
  - unfold sv_step. rewrite (step_line_some _ _ _ _ _ _ _ E3). reflexivity.
  - unfold tc_round. rewrite (step_line_some _ _ _ _ _ _ _ E4). reflexivity.
  - reflexivity.
  - unfold sv_step. rewrite (step_line_some _ _ _ _ _ _ _ E6). cbn [running sent_message].
    rewrite (outcome_text _ _ _ _ W), valid_line_eq; [reflexivity|]. intros y [= <-]. apply Lp.
  - apply valid_line_line; [exact Lu|discriminate|intros y [= <-]; exact Lp].
Qed.

(** What the SCRAM server application answers. *)
Lemma interop_stored_answer vars tr sd c k :
  let p := interop_server_cb vars tr sd c k in
  bubbling p /\
  answer PScramStoredPassword p
    = match get_ref c PAuthId with
      | Some u => if bytes_eqb u (lit "username") then inr interop_stored else inl None
      | None => inl None
      end.
Proof.
  cbv zeta. unfold interop_server_cb. destruct (get_ref c PAuthId) as [u|]; [destruct (bytes_eqb u (lit "username"))|].
  all: split; [|reflexivity].
  all: cbn; repeat first [exact I | split | intros [|] | intros ? | progress (unfold from_var; destruct (vars _); cbn)].
Qed.

(** ** SCRAM *)

Definition sha256 : mechanism := DScram SHA256 false.
Definition scram_client (e : env) (user password : bytes) : conn :=
  client_conn e user password sha256 (XScramC SHA256 (Some (ScInitial ClientNoSupport))).
Definition scram_server (e : env) (vars : variables) : conn :=
  server_conn e vars sha256 (XScramS SHA256 (Some (SsClientFirst false))).

Lemma flush_encode m : m <> [] -> flush (encode m) = [encode m].
Proof.
  intros Hm. destruct (encode m) eqn:Ee; [|reflexivity]. exfalso.
  pose proof (decode_encode m) as K. rewrite Ee in K. injection K as K. congruence.
Qed.

Lemma scram_lines e1 e2 vars show user password m1 m2 m3 m4 sc1 sc2 sc3 ss1 ss2 r v :
  let c := scram_client e1 user password in let s := scram_server e2 vars in
  step (cn_env c) (cn_session c) None [] = (Ok Running, m1, sc1) ->
  step (cn_env s) (cn_session s) (Some m1) [] = (Ok Running, m2, ss1) ->
  step (cn_env c) sc1 (Some m2) [] = (Ok Running, m3, sc2) ->
  step (cn_env s) ss1 (Some m3) [] = (Ok (Finished true), m4, ss2) ->
  step (cn_env c) sc2 (Some m4) [] = (r, [], sc3) ->
  m1 <> [] -> s_val ss2 = v ->
  match r with
  | Ok (Finished false) => forall x, v = Some x -> one_line x ->
      always_end (test_client e1 (credentials_app user password) (lit "SCRAM-SHA-256"))
        (handle_client e2 (interop_server_app vars) show)
        TcMechs SvMechs (TcReturned (lit "OK " ++ x)) SvOk [] (lit "-" ++ nl)
  | Err _ =>
      always_end (test_client e1 (credentials_app user password) (lit "SCRAM-SHA-256"))
        (handle_client e2 (interop_server_app vars) show)
        TcMechs SvMechs TcPanicked SvOk
        (match v with Some x => lit "OK " ++ x | None => lit "ERR NOTVALID" end ++ nl) []
  | _ => True
  end.
Proof.
  intros c s E1 E2 E3 E4 E5 Hm1 Hv.
  assert (G1 : tc_initial c = TcWrite (lit " " ++ encode m1) (TcWrite nl (TcRead (mk_conn (cn_env c) sha256 sc1)))).
  { unfold tc_initial. replace (are_we_first SClient (cn_mech c)) with true by reflexivity.
    change c with (mk_conn (cn_env c) sha256 (cn_session c)).
    rewrite (step_line_none _ _ _ _ _ _ E1). reflexivity. }
  assert (G2 : sv_select e2 (interop_server_app vars) show (LText (lit "SCRAM-SHA-256" ++ lit " " ++ encode m1))
               = SvWrite (encode m2 ++ nl) (SvRead (mk_conn (cn_env s) sha256 ss1))).
  { unfold sv_select. rewrite words_two; [|reflexivity|apply encode_solid|discriminate].
    rewrite (flush_encode _ Hm1).
    transitivity (sv_step show s (Some (encode m1))); [reflexivity|].
    unfold sv_step. change s with (mk_conn (cn_env s) sha256 (cn_session s)).
    rewrite (step_line_some _ _ _ _ _ _ _ E2). reflexivity. }
  assert (G3 : tc_round (mk_conn (cn_env c) sha256 sc1) (LText (encode m2))
               = TcWrite (encode m3 ++ nl) (TcRead (mk_conn (cn_env c) sha256 sc2))).
  { unfold tc_round. rewrite (step_line_some _ _ _ _ _ _ _ E3). reflexivity. }
  assert (G4 : sv_step show (mk_conn (cn_env s) sha256 ss1) (Some (encode m3))
               = SvWrite (encode m4 ++ nl)
                   (SvWrite (match v with Some x => lit "OK " ++ x | None => lit "ERR NOTVALID" end ++ nl)
                      (SvEnd SvOk))).
  { unfold sv_step. rewrite (step_line_some _ _ _ _ _ _ _ E4). cbn [running sent_message].
    unfold outcome_line, validation. cbn [cn_session fst]. rewrite Hv. destruct v; reflexivity. }
  destruct r as [[|[|]]|x|]; try exact I.
  - intros x -> Hx.
    eapply run_scram; [exact builtin_listed|reflexivity| |exact G1|exact G2|exact G3|exact G4| |
      apply ok_line; exact Hx]; [reflexivity|].
    unfold tc_round. rewrite (step_line_some _ _ _ _ _ _ _ E5). reflexivity.
  - eapply run_refused; [exact builtin_listed|reflexivity| |exact G1|exact G2|exact G3|exact G4|];
      [reflexivity|].
    unfold tc_round. rewrite (step_line_some _ _ _ _ _ _ _ E5). reflexivity.
Qed.

Lemma scram_client_facts e user password :
  let ec := cn_env (scram_client e user password) in
  provides ec PAuthId user /\ withholds ec PAuthzId /\
  (forall a salt n, gives_keys ec a password salt n).
Proof.
  intros ec.
  assert (Hcb : forall tr x k, e_cb ec tr (e_sd ec) x k = credentials_cb None user password)
    by reflexivity.
  assert (W : forall q, q <> PAuthId -> q <> PPassword -> withholds ec q).
  { intros q N1 N2 tr x. rewrite Hcb. split; [cbn; auto|]. left.
    unfold credentials_cb. cbn [answer]. destruct q; try congruence; reflexivity. }
  split; [apply (cred_authid ec None _ password Hcb)|]. split; [apply W; discriminate|].
  intros a salt n. right; right. split; [apply W; discriminate|]. split; [apply W; discriminate|].
  apply (cred_password ec None user _ Hcb).
Qed.
Lemma scram_server_looks e vars user : 
  looks_up (cn_env (scram_server e vars)) user None
    (if bytes_eqb user (lit "username") then Some interop_stored else None).
Proof.
  intros tr c [Hu _]. unfold scram_server, server_conn, with_app. cbn [cn_env e_cb e_sd].
  destruct (interop_stored_answer vars tr (mk_sdata (d_name sha256) SServer) c (RSatisfy PScramStoredPassword))
    as [A B]. split; [exact A|]. rewrite Hu in B. rewrite B.
  destruct (bytes_eqb user (lit "username")); [reflexivity|left; reflexivity].
Qed.
Lemma scram_server_validates e vars user z : validates_user (cn_env (scram_server e vars)) user z.
Proof. intros tr x slot [O1 _]. apply (interop_validates sha256); [congruence|discriminate]. Qed.
Lemma interop_usable : usable SHA256 interop_stored.
Proof. split; reflexivity. Qed.
Lemma app_crypto e sd cb vcb : crypto_ok e -> crypto_ok (with_app e sd cb vcb).
Proof. intros H. exact H. Qed.


Theorem scram_interop e1 e2 vars show password :
  crypto_ok e2 -> same_crypto e1 e2 ->
  let salted := e_pbkdf2 e2 SHA256 password (st_salt interop_stored) 4096 in
  let am := interop_message e1 e2 in
  let fits := proves e2 SHA256 (st_stored_key interop_stored) am
                (client_proof e2 SHA256 (client_key_of e2 SHA256 salted) am) in
  let same := e_hmac e2 SHA256 (st_server_key interop_stored) am
              = e_hmac e2 SHA256 (server_key_of e2 SHA256 salted) am in
  let run := always_end
      (test_client e1 (credentials_app (lit "username") password) (lit "SCRAM-SHA-256"))
      (handle_client e2 (interop_server_app vars) show) TcMechs SvMechs in
  (fits -> same -> run (TcReturned (valid_line (lit "username") None None)) SvOk [] (lit "-" ++ nl)) /\
  (fits -> ~ same -> run TcPanicked SvOk (valid_line (lit "username") None None ++ nl) []) /\
  (~ fits -> run TcPanicked SvOk (lit "ERR NOTVALID" ++ nl) []).
Proof.
  intros Hc Hs salted am fits same run.
  set (c := scram_client e1 (lit "username") password). set (s := scram_server e2 vars).
  destruct (scram_client_facts e1 (lit "username") password) as [P1 [P2 P3]].
  destruct (scram_outcomes (cn_env c) (cn_env s) (cn_session c) (cn_session s) SHA256 ClientNoSupport
    false None CbNotSupported [] (lit "username") (lit "username") None None password interop_stored)
    as [m1 [m2 [m3 [m4 [sc1 [sc2 [r [sc3 [ss1 [ss2 [evs [E1 [E2 [E3 [E4 [E5 [M1 [N H]]]]]]]]]]]]]]]]]].
  { reflexivity. } { reflexivity. } { exact Hc. } { exact Hs. } { split; reflexivity. }
  { reflexivity. } { exact I. } { discriminate. } { exact P1. } { reflexivity. } { reflexivity. }
  { exact P2. } { reflexivity. } { discriminate. }
  { exact (scram_server_looks e2 vars (lit "username")). }
  { exact interop_usable. } { split; vm_compute; discriminate. } { apply P3. }
  { apply scram_server_validates. }
  change ((fits /\ (exists x, validations evs = [x] /\ offers_scram x (lit "username") None) /\
      (same /\ r = Ok (Finished false) \/ ~ same /\ r = Err EMutualAuthenticationFailed)) \/
     (~ fits /\ validations evs = [] /\ s_val ss2 = s_val (cn_session s) /\ m4 = lit "e=invalid-proof" /\
      r = Err (EMech (MScramServerError SeInvalidProof)))) in H.
  pose proof (scram_lines e1 e2 vars show (lit "username") password m1 m2 m3 m4 sc1 sc2 sc3 ss1 ss2 r
    (s_val ss2) E1 E2 E3 E4 E5 M1 eq_refl) as R.
  destruct H as [[Hf [[x [V O]] Hr]]|[Hf [_ [Hv [_ ->]]]]].
  - assert (W : s_val ss2 = Some (interop_validation (lit "username") None None)).
    { destruct (validation_first (cn_env s) (cn_session s) ss2 (s_val ss2) eq_refl) as [evs' [N' F]].
      { eapply ca_step; [exact E2|]. eapply ca_step; [exact E4|apply ca_nil]. }
      assert (evs' = evs) as ->
        by (unfold new_events in *; rewrite N in N'; apply app_inv_head in N'; auto).
      destruct (first_of_single _ _ _ _ _ (proj2 F eq_refl) V) as [tr P].
      apply (finalize_produces (cn_env s) _ _ (interop_validation (lit "username") None None)) in P;
        [exact P|].
      destruct O as [O1 [O2 _]].
      unfold s, scram_server, server_conn, with_app. cbn [cn_env e_vcb e_sd e_vtag]. unfold interop_vcb.
      cbn [sd_mech d_name sha256]. rewrite O1, O2. reflexivity. }
    rewrite W in R. destruct Hr as [[Hs1 ->]|[Hs1 ->]].
    + split; [|split]; [|contradiction|contradiction].
      intros _ _. apply (R _ eq_refl). apply printable_line. reflexivity.
    + split; [|split]; [contradiction| |contradiction].
      intros _ _. exact R.
  - cbn [s_val cn_session s scram_server server_conn] in Hv. rewrite Hv in R.
    split; [|split]; [contradiction|contradiction|]. intros _. exact R.
Qed.

(** The password whose keys are stored. *)
Theorem scram_interop_ok e1 e2 vars show password :
  crypto_ok e2 -> same_crypto e1 e2 -> stored_for e2 SHA256 password interop_stored ->
  always_end (test_client e1 (credentials_app (lit "username") password) (lit "SCRAM-SHA-256"))
    (handle_client e2 (interop_server_app vars) show)
    TcMechs SvMechs (TcReturned (valid_line (lit "username") None None)) SvOk [] (lit "-" ++ nl).
Proof.
  intros Hc Hs [K1 K2]. apply (scram_interop e1 e2 vars show password Hc Hs).
  - cbv zeta in K1. unfold proves. rewrite K1. unfold client_proof.
    rewrite <- !xor_zip_text, xor_zip_cancel; [reflexivity|].
    destruct Hc as [Hh [Hm Hp]]. unfold client_key_of. rewrite !Hm. reflexivity.
  - cbv zeta in K2. rewrite K2. reflexivity.
Qed.

Theorem scram_interop_unknown e1 e2 vars show user name password :
  crypto_ok e1 -> utf8_valid user = true -> escape user = Ok name -> name <> lit "username" ->
  always_end (test_client e1 (credentials_app user password) (lit "SCRAM-SHA-256"))
    (handle_client e2 (interop_server_app vars) show)
    TcMechs SvMechs TcPanicked SvOk (lit "ERR NOTVALID" ++ nl) [].
Proof.
  intros Hc Vu Eu Hn.
  set (c := scram_client e1 user password). set (s := scram_server e2 vars).
  destruct (scram_client_facts e1 user password) as [P1 [P2 P3]].
  destruct (scram_unknown (cn_env c) (cn_env s) (cn_session c) (cn_session s) SHA256 ClientNoSupport
    false None CbNotSupported [] user name None None password)
    as [m1 [m2 [m3 [sc1 [sc2 [sc3 [ss1 [ss2 [evs [E1 [E2 [E3 [E4 [E5 [M1 [N [_ Hv]]]]]]]]]]]]]]]]].
  { reflexivity. } { reflexivity. } { exact Hc. } { split; reflexivity. }
  { reflexivity. } { exact I. } { discriminate. } { exact P1. } { exact Eu. } { exact Vu. }
  { exact P2. } { reflexivity. } { discriminate. }
  { pose proof (scram_server_looks e2 vars name) as L. destruct (bytes_eqb name (lit "username")) eqn:E.
    - apply bytes_eqb_eq in E. contradiction.
    - exact L. }
  { apply P3. }
  pose proof (scram_lines e1 e2 vars show user password _ _ _ _ _ _ _ _ _ _
    (s_val ss2) E1 E2 E3 E4 E5 M1 eq_refl) as R.
  cbn [s_val cn_session s scram_server server_conn] in Hv. rewrite Hv in R. exact R.
Qed.

(** * The server against any client *)

Lemma step64_call e s i r out s' : step64 e s i = (r, out, s') ->
  (exists j o, step e s j [] = (r, o, s') /\ out = encode o) \/ (r = Err EBase64 /\ s' = s).
Proof.
  unfold step64. destruct i as [i|].
  - destruct (decode i) as [j|]; [|intros [= <- _ <-]; right; auto].
    destruct (step e s (Some j) []) as [[r0 o] s0] eqn:E. intros [= <- <- <-]. left. eauto.
  - destruct (step e s None []) as [[r0 o] s0] eqn:E. intros [= <- <- <-]. left. eauto.
Qed.

Definition ends_ok (c : conn) (out : bytes) : Prop :=
  exists msgs s1 j o b s', calls (cn_env c) (cn_session c) s1 /\
    step (cn_env c) s1 j [] = (Ok (Finished b), o, s') /\
    Forall (fun m => forallb solid m = true) msgs /\
    out = concat (map (fun m => m ++ nl) msgs) ++ outcome_line (with_session c s').

Lemma step_ok e a show k : forall c i ls out, length ls <= k ->
  talks (handle_client e a show) (sv_step show c i) ls out (SvEnd SvOk) -> ends_ok c out.
Proof.
  induction k as [|k IH]; intros c i ls out Hk H.
  all: unfold sv_step, step_line in H;
    destruct (step64 (cn_env c) (cn_session c) i) as [[r x] s'] eqn:E;
    apply step64_call in E; destruct r as [st|err|].
  2,3,5,6: exfalso; inversion H as [|? ? ? ? ? ? W T|? ? ? ? ? ? W T]; subst; try discriminate;
       cbn in W; injection W as <- <-; inversion T; subst; discriminate.
  all: destruct E as [[j [o [E ->]]]|[[=] _]].
  all: assert (R : forall ls0 out0, length ls0 <= length ls ->
      talks (handle_client e a show) (if running st then SvRead (with_session c s')
              else SvWrite (outcome_line (with_session c s')) (SvEnd SvOk)) ls0 out0 (SvEnd SvOk) ->
      exists msgs s1 j o b s2, calls (cn_env c) s' s1 /\
        (step (cn_env c) s1 j [] = (Ok (Finished b), o, s2) \/ (st = Finished b /\ s1 = s' /\ s2 = s')) /\
        Forall (fun m => forallb solid m = true) msgs /\
        out0 = concat (map (fun m => m ++ nl) msgs) ++ outcome_line (with_session c s2)).
  1,3: intros ls0 out0 Hl T; destruct st as [|b]; cbn [running] in T.
  { inversion T as [|? ? ? ? ? ? W T1|? kk l ? ? ? W T1]; subst; [discriminate W|].
    cbn [length] in Hl. lia. }
  { inversion T as [|? ? ? ? ? ? W T1|? ? ? ? ? ? W T1]; subst; try discriminate.
    cbn in W. injection W as <- <-. inversion T1; subst; try discriminate.
    exists [], s', None, [], b, s'. split; [apply ca_nil|]. split; [right; auto|]. split; [constructor|].
    cbn [map concat app]. rewrite app_nil_r. reflexivity. }
  { inversion T as [|? ? ? ? ? ? W T1|? kk l ? ? ? W T1]; subst; [discriminate W|].
    cbn in W. injection W as <-. destruct l as [| |line];
      [inversion T1; subst; discriminate|inversion T1; subst; discriminate|].
    apply IH in T1; [|cbn [length] in Hl; lia].
    destruct T1 as [msgs [s1 [j0 [o0 [b [s2 [C [S1 [F ->]]]]]]]]].
    exists msgs, s1, j0, o0, b, s2. split; [exact C|]. split; [left; exact S1|]. split; [exact F|reflexivity]. }
  { inversion T as [|? ? ? ? ? ? W T1|? ? ? ? ? ? W T1]; subst; try discriminate.
    cbn in W. injection W as <- <-. inversion T1; subst; try discriminate.
    exists [], s', None, [], b, s'. split; [apply ca_nil|]. split; [right; auto|]. split; [constructor|].
    cbn [map concat app]. rewrite app_nil_r. reflexivity. }
  all: assert (F : forall ls0 out0, length ls0 <= length ls ->
      talks (handle_client e a show) (if running st then SvRead (with_session c s')
              else SvWrite (outcome_line (with_session c s')) (SvEnd SvOk)) ls0 out0 (SvEnd SvOk) ->
      ends_ok c out0)
    by (intros ls0 out0 Hl T; destruct (R _ _ Hl T) as [msgs [s1 [j0 [o0 [b [s2 [C [S1 [F ->]]]]]]]]];
        destruct S1 as [S1|[-> [-> ->]]];
        [exists msgs, s1, j0, o0, b, s2; split; [eapply ca_step; [exact E|exact C]|];
         split; [exact S1|]; split; [exact F|reflexivity]
        |exists msgs, (cn_session c), j, o, b, s'; split; [apply ca_nil|];
         split; [exact E|]; split; [exact F|reflexivity]]).
  all: destruct (sent_message st); [|exact (F _ _ (Nat.le_refl _) H)].
  all: inversion H as [|? ? ? ? ? ? W T|? ? ? ? ? ? W T]; subst; try discriminate;
    cbn in W; injection W as <- <-; apply F in T; [|lia];
    destruct T as [msgs [s1 [j0 [o0 [b [s2 [C [S1 [G ->]]]]]]]]];
    exists (encode o :: msgs), s1, j0, o0, b, s2; split; [exact C|]; split; [exact S1|];
    split; [constructor; [apply encode_solid|exact G]|];
    cbn [map concat]; rewrite !app_assoc; reflexivity.
Qed.

(** What the server has written when it ends without an error of its own. *)
Theorem server_reports e a show ls out :
  talks (handle_client e a show) SvMechs ls out (SvEnd SvOk) ->
  exists line rest name args mech i d c msgs s1 j o b s' evs,
    ls = LText line :: rest /\ words line = name :: args /\ mn_parse name = Ok mech /\
    server_start (ap_registry a) mech = Ok (i, d) /\ fresh e a SServer i d = Some c /\
    calls (cn_env c) (cn_session c) s1 /\ step (cn_env c) s1 j [] = (Ok (Finished b), o, s') /\
    new_events (cn_session c) s' evs /\
    Forall (fun m => ~ In " "%char m /\ ~ In newline m) msgs /\
    exists v, first_produced (cn_env c) [] evs v /\
      out = mechs_line (ap_registry a) ++ concat (map (fun m => m ++ nl) msgs)
            ++ match v with Some x => lit "OK " ++ x | None => lit "ERR NOTVALID" end ++ nl.
Proof.
  intros H. inversion H as [|? ? ? ? ? ? W T|? ? ? ? ? ? W T]; subst; try discriminate.
  cbn in W. injection W as <- <-.
  inversion T as [|? ? ? ? ? ? W T1|? kk l ? ? ? W T1]; subst; try discriminate.
  cbn in W. injection W as <-. clear H T.
  assert (Z : forall l1 o1, ~ talks (handle_client e a show) (SvEnd SvErr) l1 o1 (SvEnd SvOk)).
  { intros l1 o1 K. inversion K; subst; discriminate. }
  unfold sv_select in T1. destruct l as [| |line]; [exfalso; exact (Z _ _ T1)..|].
  destruct (words line) as [|name args] eqn:Ew; [exfalso; exact (Z _ _ T1)|].
  destruct (mn_parse name) as [mech| |] eqn:Em; [|exfalso; exact (Z _ _ T1)..].
  destruct (server_start (ap_registry a) mech) as [[i d]| |] eqn:Es; [|exfalso; exact (Z _ _ T1)..].
  destruct (fresh e a SServer i d) as [c|] eqn:Ef; [|exfalso; exact (Z _ _ T1)].
  assert (S0 : s_val (cn_session c) = None /\ s_trace (cn_session c) = []).
  { unfold fresh in Ef. destruct i; [|discriminate Ef]. injection Ef as <-. split; reflexivity. }
  assert (K : ends_ok c out0 \/ exists out1, out0 = (lit "-" ++ nl) ++ out1 /\ ends_ok c out1).
  { destruct (are_we_first SServer d); [left; eapply step_ok; [apply Nat.le_refl|exact T1]|].
    destruct args as [|data args]; [|left; eapply step_ok; [apply Nat.le_refl|exact T1]].
    right. inversion T1 as [|? ? ? ? ? ? W T2|? ? ? ? ? ? W T2]; subst; try discriminate.
    cbn in W. injection W as <- <-. eexists. split; [reflexivity|].
    inversion T2 as [|? ? ? ? ? ? W T3|? kk l ? ? ? W T3]; subst; try discriminate.
    cbn in W. injection W as <-. destruct l as [| |l]; [exfalso; exact (Z _ _ T3)..|].
    eapply step_ok; [apply Nat.le_refl|exact T3]. }
  assert (G : exists msgs s1 j o b s', calls (cn_env c) (cn_session c) s1 /\
    step (cn_env c) s1 j [] = (Ok (Finished b), o, s') /\
    Forall (fun m => forallb solid m = true) msgs /\
    out0 = concat (map (fun m => m ++ nl) msgs) ++ outcome_line (with_session c s')).
  { destruct K as [K|[out1 [-> [msgs [s1 [j [o [b [s' [C [S1 [F ->]]]]]]]]]]]]; [exact K|].
    exists (lit "-" :: msgs), s1, j, o, b, s'. split; [exact C|]. split; [exact S1|].
    split; [constructor; [reflexivity|exact F]|]. cbn [map concat]. rewrite app_assoc. reflexivity. }
  destruct G as [msgs [s1 [j [o [b [s' [C [S1 [F ->]]]]]]]]].
  destruct (validation_first (cn_env c) (cn_session c) s' (s_val s') (proj1 S0)) as [evs [N Q]].
  { clear -C S1. induction C; [eapply ca_step; [exact S1|apply ca_nil]|..];
      [eapply ca_step|eapply ca_encode|eapply ca_decode]; eauto. }
  exists line, ls0, name, args, mech, i, d, c, msgs, s1, j, o, b, s', evs.
  repeat (split; [solve [assumption|reflexivity]|]).
  split.
  { eapply Forall_impl; [|exact F]. intros m Hm. rewrite forallb_forall in Hm.
    split; intros K1; apply Hm in K1; discriminate K1. }
  exists (s_val s'). split; [rewrite <- (proj2 S0); apply Q; reflexivity|].
  unfold outcome_line, validation, with_session. cbn [cn_session fst].
  destruct (s_val s'); rewrite ?app_assoc; reflexivity.
Qed.

(** * What does not work *)

(** ** SCRAM-SHA-1 and SCRAM-SHA-512 *)

Lemma cut_some (l r : bytes) : exists a b, cut_line (l ++ newline :: r) = Some (a, b).
Proof.
  induction l as [|c l IH].
  - exists [], r. reflexivity.
  - destruct IH as [a [b H]]. cbn [app cut_line].
    destruct (beq c newline).
    + exists [], (l ++ newline :: r). reflexivity.
    + exists (c :: a), b. rewrite H. reflexivity.
Qed.

Lemma cut_app (p l a b : bytes) :
  ~ In newline p -> cut_line l = Some (a, b) -> cut_line (p ++ l) = Some (p ++ a, b).
Proof.
  intros Hn H. induction p as [|c p IH]; [exact H|].
  cbn [app cut_line]. destruct (beq c newline) eqn:E.
  - apply beq_eq in E. subst c. exfalso. apply Hn. left. reflexivity.
  - rewrite IH; [reflexivity|]. intros I. apply Hn. right. exact I.
Qed.

(** A line that starts like an error cannot be decoded. *)
Lemma err_line closed (x : bytes) : exists l rest,
  take_line closed (lit "ERR " ++ x ++ nl) = Some (l, rest) /\
  (l = LBad \/ exists y, l = LText y /\ decode y = None).
Proof.
  destruct (cut_some x []) as [a [b H]].
  assert (E : cut_line (lit "ERR " ++ x ++ nl) = Some (lit "ERR " ++ a, b)).
  { apply cut_app; [|exact H]. intros [F|[F|[F|[F|[]]]]]; discriminate F. }
  unfold take_line. rewrite E. eexists _, b. split; [reflexivity|]. unfold line_of.
  destruct (utf8_valid (drop_cr (lit "ERR " ++ a))); [right|left; reflexivity].
  eexists. split; [reflexivity|].
  destruct (decode (drop_cr (lit "ERR " ++ a))) as [y|] eqn:D; [|reflexivity]. exfalso.
  apply decode_canonical in D.
  assert (I : In " "%char (drop_cr (lit "ERR " ++ a))).
  { unfold drop_cr. pose proof (rev_app_distr (lit "ERR " : bytes) a) as Rv. unfold bytes, byte in *. rewrite Rv.
    destruct (rev a) as [|c r] eqn:Er.
    - cbn. tauto.
    - cbn [app]. destruct (beq c (chr 13)).
      + rewrite rev_app_distr. cbn. tauto.
      + cbn [lit app]. right. right. right. left. reflexivity. }
  rewrite D in I. pose proof (encode_solid y) as S. rewrite forallb_forall in S.
  apply S in I. discriminate I.
Qed.

Definition other_client (e : env) (a : alg) (user password : bytes) : conn :=
  client_conn e user password (DScram a false) (XScramC a (Some (ScInitial ClientNoSupport))).
Definition other_server (e : env) (vars : variables) (a : alg) : conn :=
  server_conn e vars (DScram a false) (XScramS a (Some (SsClientFirst false))).

Lemma other_client_facts e a user password :
  let ec := cn_env (other_client e a user password) in
  provides ec PAuthId user /\ withholds ec PAuthzId.
Proof.
  intros ec.
  assert (Hcb : forall tr x k, e_cb ec tr (e_sd ec) x k = credentials_cb None user password)
    by reflexivity.
  split; [apply (cred_authid ec None _ password Hcb)|].
  intros tr x. rewrite Hcb. split; [cbn; auto|]. left. reflexivity.
Qed.

Lemma other_server_looks e vars a :
  looks_up (cn_env (other_server e vars a)) (lit "username") None (Some interop_stored).
Proof.
  intros tr c [Hu _]. unfold other_server, server_conn, with_app. cbn [cn_env e_cb e_sd].
  destruct (interop_stored_answer vars tr (mk_sdata (d_name (DScram a false)) SServer) c
              (RSatisfy PScramStoredPassword)) as [A B].
  split; [exact A|]. rewrite Hu in B. exact B.
Qed.

(** A client that fails on the first line of the server. *)
Lemma run_error e1 a1 e2 a2 show (mech : bytes) c c1 l0 m1 x :
  listed (ap_registry a2) l0 -> forallb solid mech = true ->
  tc_mechs e1 a1 mech (LText l0) = TcWrite mech (tc_initial c) ->
  tc_initial c = TcWrite (lit " " ++ encode m1) (TcWrite nl (TcRead c1)) ->
  sv_select e2 a2 show (LText (mech ++ lit " " ++ encode m1))
    = SvWrite (lit "ERR " ++ x ++ nl) (SvEnd SvErr) ->
  exists rest, always_end (test_client e1 a1 mech) (handle_client e2 a2 show) TcMechs SvMechs
    TcPanicked SvErr rest [].
Proof.
  intros [M1 M2] Hs T1 T2 V0.
  destruct (err_line true x) as [l [rest [L K]]]. exists rest.
  assert (F : tc_round c1 l = TcEnd TcPanicked).
  { destruct K as [->|[y [-> D]]]; [reflexivity|]. unfold tc_round, step_line, step64. rewrite D. reflexivity. }
  eapply always_end_by.
  - rw. rewrite M1. cbn [app].
    ll ltac:(apply take_text; exact M2). rewrite T1, T2. lw. lw. lw.
    rl ltac:(apply take_first; exact Hs).
    rewrite V0. rw. cbn [app]. ll ltac:(exact L). rewrite F. apply NRefl.
  - repeat split.
Qed.

Theorem scram_other_interop e1 e2 vars show a password :
  a <> SHA256 ->
  exists rest, always_end
    (test_client e1 (credentials_app (lit "username") password) (scram_name a))
    (handle_client e2 (interop_server_app vars) show) TcMechs SvMechs TcPanicked SvErr rest [].
Proof.
  intros Ha.
  set (c := other_client e1 a (lit "username") password). set (s := other_server e2 vars a).
  destruct (other_client_facts e1 a (lit "username") password) as [P1 P2].
  destruct (client_first_run (cn_env c) (cn_session c) a ClientNoSupport None CbNotSupported []
    (lit "username") (lit "username") None None) as [sc1 [E1 _]].
  { reflexivity. } { split; reflexivity. } { exact P1. } { reflexivity. } { exact P2. } { reflexivity. }
  match type of E1 with _ = (_, ?v, _) => set (m1 := v) in * end.
  destruct (unusable_refused (cn_env s) (cn_session s) a false m1 CbNotSupported (lit "a=") None
    (lit "username") (nonce_from e1 0) [] [] interop_stored []) as [ss1 [E2 _]].
  { reflexivity. }
  { apply (sent_fields CbNotSupported (lit "username") (lit "username") None None (nonce_from e1 0));
      [reflexivity|reflexivity|reflexivity|discriminate|exact I|]. apply (nonce_from_legal e1 0). }
  { discriminate. } { reflexivity. } { exact (other_server_looks e2 vars a). }
  { intros [K _]. destruct a; [discriminate K|congruence|discriminate K]. }
  assert (Hm1 : m1 <> []) by discriminate.
  assert (G1 : tc_initial c
    = TcWrite (lit " " ++ encode m1) (TcWrite nl (TcRead (mk_conn (cn_env c) (DScram a false) sc1)))).
  { unfold tc_initial. replace (are_we_first SClient (cn_mech c)) with true by reflexivity.
    change c with (mk_conn (cn_env c) (DScram a false) (cn_session c)).
    rewrite (step_line_none _ _ _ _ _ _ E1). reflexivity. }
  assert (G2 : sv_select e2 (interop_server_app vars) show (LText (scram_name a ++ lit " " ++ encode m1))
    = SvWrite (lit "ERR " ++ show (EMech MScramPasswordHashInvalid) ++ nl) (SvEnd SvErr)).
  { unfold sv_select. rewrite words_two; [|destruct a; reflexivity|apply encode_solid|destruct a; discriminate].
    rewrite (flush_encode _ Hm1).
    transitivity (sv_step show s (Some (encode m1))); [destruct a; reflexivity|].
    unfold sv_step. change s with (mk_conn (cn_env s) (DScram a false) (cn_session s)).
    rewrite (step_line_some _ _ _ _ _ _ _ E2). reflexivity. }
  eapply run_error; [exact builtin_listed|destruct a; reflexivity| |exact G1|exact G2].
  destruct a; reflexivity.
Qed.

(** ** The client program *)

Lemma find_in {A} (f : A -> bool) l x : find f l = Some x -> In x l.
Proof. intros H. apply find_some in H. apply H. Qed.

Lemma connect_in e vars c : cl_connect e vars = Some c -> In (cn_mech c) builtin_registry.
Proof.
  unfold cl_connect. intros H.
  destruct (vars (lit "RSASL_MECH")) as [m|]; [|discriminate].
  destruct (mn_parse m) as [n| |]; try discriminate.
  destruct (client_start builtin_registry false default_prefer [n]) as [[i d]| |] eqn:E; try discriminate.
  apply never_unoffered in E; [|discriminate]. destruct E as [E _].
  destruct i; [|discriminate]. cbn [fresh] in H. injection H as <-. exact E.
Qed.

Lemma cl_silent e vars s ls out t : s <> ClStart ->
  talks (bin_client e vars) s ls out t -> t <> ClStart /\ out = [].
Proof.
  intros Hs T. induction T as [s|s s1 s2 ls x out H T IH|s k l ls out s2 H T IH].
  - auto.
  - destruct s; [congruence|discriminate H|discriminate H].
  - apply IH. destruct s; [congruence| |discriminate H]. injection H as <-.
    destruct l; try discriminate; unfold cl_step; destruct (step_line c _) as [[[[|]| |] ?] ?]; discriminate.
Qed.

(** The client program sends the name of a mechanism and nothing else. *)
Theorem bin_client_sends e vars ls out t :
  talks (bin_client e vars) ClStart ls out t ->
  out = [] \/ exists d, In d builtin_registry /\ out = d_name d ++ nl.
Proof.
  intros T. inversion T as [|? s1 ? ? x out' H T'|? ? ? ? ? ? H T']; subst.
  - auto.
  - right. cbn [bin_client] in H. destruct (cl_connect e vars) as [c|] eqn:E; [|discriminate].
    injection H as <- <-. exists (cn_mech c). split; [eapply connect_in; exact E|].
    assert (Ns : (if are_we_first SClient (cn_mech c) then cl_step c None else ClRead c) <> ClStart).
    { destruct (are_we_first SClient (cn_mech c)); [|discriminate].
      unfold cl_step. destruct (step_line c _) as [[[[|]| |] ?] ?]; discriminate. }
    destruct (cl_silent _ _ _ _ _ _ Ns T') as [_ ->]. apply app_nil_r.
  - cbn [bin_client] in H. destruct (cl_connect e vars); discriminate.
Qed.

Lemma reads_empty e ls b : reads e [] ls b -> Forall (fun l => l = LEnd) ls.
Proof.
  remember [] as b0 eqn:E. induction 1 as [b0|c b0 l b1 ls b2 H1 H2 H3 IH]; [constructor|]. subst b0.
  unfold take_line in H2. cbn [cut_line] in H2. destruct c; [|discriminate].
  injection H2 as <- <-. constructor; auto.
Qed.
Lemma reads_one e l ls b : one_line l -> reads e (l ++ nl) ls b ->
  ls = [] \/ exists ls', ls = LText l :: ls' /\ Forall (fun l => l = LEnd) ls'.
Proof.
  intros Hl H. inversion H as [|c ? x b1 ls' ? H1 H2 H3]; subst; [auto|]. right.
  exists ls'. pose proof (take_text c l [] Hl) as K. unfold nl in *.
  rewrite K in H2. injection H2 as <- <-. split; [reflexivity|].
  eapply reads_empty. exact H3.
Qed.

Inductive stuck : sv -> Prop :=
| StWrite b t : stuck t -> stuck (SvWrite b t)
| StRead c : stuck (SvRead c)
| StErr : stuck (SvEnd SvErr).

Lemma stuck_talks e a show s ls out t : stuck s -> Forall (fun l => l = LEnd) ls ->
  talks (handle_client e a show) s ls out t -> stuck t.
Proof.
  intros Hs Hl T. induction T as [s|s s1 s2 ls x out H T IH|s k l ls out s2 H T IH].
  - exact Hs.
  - apply IH; [|exact Hl]. inversion Hs; subst s; cbn [handle_client] in H; try discriminate H.
    injection H as <- <-. assumption.
  - inversion Hl; subst. apply IH; [|assumption].
    inversion Hs; subst s; cbn [handle_client] in H; try discriminate H.
    injection H as <-. constructor.
Qed.

Lemma select_stuck e a show d : In d builtin_registry -> ap_registry a = builtin_registry ->
  stuck (sv_select e a show (LText (d_name d))).
Proof.
  intros Hd Ha. unfold sv_select. rewrite Ha.
  cbn [In builtin_registry] in Hd.
  repeat (destruct Hd as [<-|Hd]; [cbn [d_name]; rewrite words_one; [|reflexivity|discriminate]; repeat constructor|]).
  destruct Hd.
Qed.

(** No server that lists the built-in mechanisms completes an exchange with the client program. *)
Theorem bin_client_never e1 vars e2 a show m n :
  ap_registry a = builtin_registry ->
  nsteps (bin_client e1 vars) (handle_client e2 a show) m (mk_net ClStart SvMechs [] []) n ->
  n_right n <> SvEnd SvOk.
Proof.
  intros Ha H. destruct (received _ _ _ _ _ _ H) as [ls1 [out1 [ls2 [out2 [T1 [T2 [R1 _]]]]]]].
  intros E. rewrite E in T2.
  inversion T2 as [|? s1 ? ? x out H1 T3|? ? ? ? ? ? H1 T3]; subst; [|discriminate H1].
  cbn [handle_client] in H1. injection H1 as <- <-.
  inversion T3 as [|? ? ? ? ? ? H1 T4|? k l ls ? ? H1 T4]; subst; [discriminate H1|].
  cbn [handle_client] in H1. injection H1 as <-.
  assert (K : stuck (SvEnd SvOk)); [|inversion K].
  destruct (bin_client_sends _ _ _ _ _ T1) as [->|[d [Hd ->]]].
  - apply reads_empty in R1. inversion R1; subst. eapply stuck_talks; [|eassumption|exact T4].
    constructor.
  - apply reads_one in R1.
    + destruct R1 as [R1|[ls' [R1 F]]]; [discriminate R1|]. injection R1 as -> ->.
      eapply stuck_talks; [|exact F|exact T4]. apply select_stuck; assumption.
    + cbn [In builtin_registry] in Hd.
      repeat (destruct Hd as [<-|Hd]; [apply printable_line; reflexivity|]). destruct Hd.
Qed.

Lemma from_var_bubbling vars key k : (forall x, bubbling (k x)) -> bubbling (from_var vars key k).
Proof. intros H. unfold from_var. destruct (vars key); [apply H|exact I]. Qed.
Lemma client_cb_bubbling vars tr sd c k : bubbling (interop_client_cb vars tr sd c k).
Proof.
  unfold interop_client_cb.
  repeat (cbn [bubbling]; intros [|]; [first [apply from_var_bubbling; intros x; split; [reflexivity|exact I]
                                             |cbn [bubbling]; intros o; exact I]|]).
  exact I.
Qed.
(** PLAIN: the client program reports success while the server has received nothing. *)
Theorem bin_client_plain e1 vars e2 a show user password :
  vars (lit "RSASL_MECH") = Some (lit "PLAIN") ->
  vars (lit "RSASL_AUTHID") = Some user -> vars (lit "RSASL_PASSWORD") = Some password ->
  user <> [] -> password <> [] -> nul_free user -> nul_free password ->
  (forall z, vars (lit "RSASL_AUTHZID") = Some z -> nul_free z) ->
  ap_registry a = builtin_registry ->
  always_end (bin_client e1 vars) (handle_client e2 a show) ClStart SvMechs ClOk SvErr
    (mechs_line builtin_registry ++ lit "-" ++ nl) [].
Proof.
  intros Vm Vu Vp Hu Hp Nu Np Nz Ha.
  set (ec := with_app e1 (mk_sdata (lit "PLAIN") SClient) (interop_client_cb vars) (fun _ _ _ => VRet None)).
  destruct (plain_client_complete ec (mk_session XPlainC [] 0 None) None (vars (lit "RSASL_AUTHZID"))
    user password) as [s1 E1].
  { reflexivity. }
  { intros tr c. split; [apply client_cb_bubbling|]. 
    transitivity (answer PAuthId (from_var vars (lit "RSASL_AUTHID") (fun x : bytes => CSatisfy PAuthId x (fun r => CRet r))));
      [reflexivity|]. unfold from_var. rewrite Vu. reflexivity. }
  { intros tr c. split; [apply client_cb_bubbling|].
    transitivity (answer PPassword (from_var vars (lit "RSASL_PASSWORD") (fun x : bytes => CSatisfy PPassword x (fun r => CRet r))));
      [reflexivity|]. unfold from_var. rewrite Vp. reflexivity. }
  { assert (A : forall tr c, answer PAuthzId (e_cb ec tr (e_sd ec) c (RSatisfy PAuthzId))
      = answer PAuthzId (from_var vars (lit "RSASL_AUTHZID") (fun x : bytes => CSatisfy PAuthzId x (fun r => CRet r))))
      by reflexivity.
    unfold from_var in A. destruct (vars (lit "RSASL_AUTHZID")); intros tr c.
    - split; [apply client_cb_bubbling|]. rewrite A. reflexivity.
    - split; [apply client_cb_bubbling|]. right. rewrite A. reflexivity. }
  { assumption. } { assumption. } { assumption. } { assumption. } { assumption. }
  set (c := mk_conn ec DPlain (mk_session XPlainC [] 0 None)).
  assert (C : cl_connect e1 vars = Some c) by (unfold cl_connect; rewrite Vm; reflexivity).
  assert (C1 : cl_step c None = ClEnd ClOk).
  { unfold cl_step. cbn [option_map]. unfold c. rewrite (step_line_none _ _ _ _ _ _ E1). reflexivity. }
  set (v := mk_conn (with_app e2 (mk_sdata (lit "PLAIN") SServer) (ap_cb a) (ap_vcb a)) DPlain
              (mk_session XPlainS [] 0 None)).
  assert (V : sv_select e2 a show (LText (lit "PLAIN")) = SvWrite (lit "-" ++ nl) (SvRead v)).
  { unfold sv_select. rewrite words_one; [|reflexivity|discriminate]. rewrite Ha. reflexivity. }
  eapply always_end_by.
  - eapply NStep.
    { eapply NLeftWrite. cbn [bin_client]. rewrite C.
      replace (are_we_first SClient (cn_mech c)) with true by reflexivity. rewrite C1. reflexivity. }
    rw. cbn [app cn_mech c]. rl ltac:(apply (take_text _ (lit "PLAIN")); apply printable_line; reflexivity).
    rewrite V. rw. rl ltac:(reflexivity). apply NRefl.
  - rewrite Ha. repeat split.
Qed.

(** ** What works with the stored credentials *)
Theorem interop_credentials e1 e2 vars show password mech :
  crypto_ok e2 -> same_crypto e1 e2 -> stored_for e2 SHA256 password interop_stored ->
  password <> [] -> nul_free password -> one_line password ->
  prepared e2 (lit "username") (lit "username") -> prepared e2 password password ->
  In mech [lit "PLAIN"; lit "LOGIN"; lit "SCRAM-SHA-256"] ->
  exists line rest, always_end
    (test_client e1 (credentials_app (lit "username") password) mech)
    (handle_client e2 (interop_server_app vars) show)
    TcMechs SvMechs (TcReturned (lit "OK " ++ line)) SvOk [] rest.
Proof.
  intros Hc Hs Hk Hp Np Lp Pu Pp Hm.
  assert (Lu : one_line (lit "username")) by (apply printable_line; reflexivity).
  assert (W : forall u z p, exists l, valid_line u z p = lit "OK " ++ l).
  { intros u z p. eexists. unfold valid_line. reflexivity. }
  cbn [In] in Hm. destruct Hm as [<-|[<-|[<-|[]]]].
  - destruct (W (lit "username") (Some []) (Some password)) as [l E]. exists l, []. rewrite <- E.
    apply plain_interop; try assumption; try discriminate; try reflexivity.
    + intros K. cbn in K. intuition discriminate.
    + apply Lp.
  - destruct (W (lit "username") None (Some password)) as [l E]. exists l, []. rewrite <- E.
    apply login_interop; assumption.
  - destruct (W (lit "username") None None) as [l E]. exists l, (lit "-" ++ nl). rewrite <- E.
    apply scram_interop_ok; assumption.
Qed.

(** The outcome line shows what was validated. *)
Lemma first_some e tr evs x : first_produced e tr evs (Some x) ->
  exists tr' c, In c (validations evs) /\ produces e tr' c (Some x).
Proof.
  intros H. remember (Some x) as o. induction H as [|tr ev evs o N H IH|tr c evs o P H IH|tr c evs y P]; subst.
  - discriminate.
  - destruct (IH eq_refl) as [tr' [c [I P]]]. exists tr', c. split; [|exact P].
    destruct ev; cbn [validations flat_map app]; try exact I. right. exact I.
  - destruct (IH eq_refl) as [tr' [c' [I P']]]. exists tr', c'. split; [right; exact I|exact P'].
  - injection Heqo as ->. exists tr, c. split; [left; reflexivity|exact P].
Qed.

Theorem interop_shown e vars i d v s' x :
  fresh e (interop_server_app vars) SServer i d = Some v ->
  calls (cn_env v) (cn_session v) s' -> s_val s' = Some x ->
  exists evs c u, new_events (cn_session v) s' evs /\ In c (validations evs) /\
    get_ref c PAuthId = Some u /\
    ((In (d_name d) [lit "PLAIN"; lit "LOGIN"] /\ exists p, get_ref c PPassword = Some p /\
        (utf8_valid p = true -> lit "OK " ++ x = valid_line u (get_ref c PAuthzId) (Some p))) \/
     ((exists r, d_name d = lit "SCRAM-" ++ r) /\
        lit "OK " ++ x = valid_line u (get_ref c PAuthzId) None)).
Proof.
  intros F C V. destruct i as [m|]; [|discriminate]. injection F as <-. cbn [cn_env cn_session] in *.
  set (e' := with_app _ _ _ _) in *.
  destruct (validation_first e' (mk_session m [] 0 None) s' (Some x) eq_refl C) as [evs [N Q]].
  destruct (first_some _ _ _ _ (proj2 Q V)) as [tr [c [I P]]]. exists evs, c.
  destruct P as [cs [y [H1 [H2 H3]]]].
  change (vfollows (interop_vcb tr (mk_sdata (d_name d) SServer) c) cs y) in H1.
  change (e_vtag e') with test_validation in *.
  unfold interop_vcb in H1. cbn [sd_mech] in H1.
  assert (K : forall z, vfollows (VRet z) cs y -> False).
  { intros z K. inversion K; subst. discriminate H3. }
  assert (J : forall b, vfollows (VFinalize test_validation b (VRet None)) cs y -> x = b).
  { intros b J. inversion J as [|? ? ? cs0 ? J1| |]; subst. inversion J1; subst.
    cbn [first_final] in H3. rewrite Nat.eqb_refl in H3. now injection H3. }
  destruct (bytes_eqb (d_name d) (lit "PLAIN") || bytes_eqb (d_name d) (lit "LOGIN")) eqn:B.
  - destruct (get_ref c PAuthId) as [u|] eqn:U; [|now apply K in H1].
    destruct (get_ref c PPassword) as [p|] eqn:W; [|now apply K in H1].
    apply J in H1. exists u. split; [exact N|]. split; [exact I|]. split; [reflexivity|]. left. split.
    + apply orb_prop in B. destruct B as [B|B]; apply bytes_eqb_eq in B; rewrite B; cbn; auto.
    + exists p. split; [reflexivity|]. intros T. rewrite H1. apply valid_line_eq. intros z E. injection E as <-. exact T.
  - destruct (strip_prefix (lit "SCRAM-") (d_name d)) as [r|] eqn:S; [|now apply K in H1].
    destruct (get_ref c PAuthId) as [u|] eqn:U; [|now apply K in H1].
    apply J in H1. exists u. split; [exact N|]. split; [exact I|]. split; [reflexivity|]. right. split.
    + exists r. now apply strip_prefix_iff in S.
    + rewrite H1. apply valid_line_eq. discriminate.
Qed.
