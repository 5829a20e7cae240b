(** Lemmas for C128. *)
From Verif Require Import Bytes BytesFacts Utf8 Types World CallbackSpec WorldFacts MonadFacts Simple OAuth ScramParser
  Scram Gssapi Session Registry Frame Spec_Simple Spec_OAuth Spec_Scram Spec_Registry Spec_Order Spec_History Spec_Errors
  Spec_Docs Spec_Talk Proof_Simple Proof_OAuth Proof_Scram Proof_ScramRun Proof_ScramMain Proof_Errors Proof_Docs Proof_Talk Proof_Authzid Proof_Empty
  Spec_Names Proof_Names Spec_Secrets.
From Coq Require Import Lia.
Open Scope m_scope.

Lemma seen_events (P : ctx -> Prop) s s' evs x w :
  w_trace w = s_trace s' -> seen P (mk_world [] [] (s_trace s) 0 None) w ->
  new_events s s' evs -> In (EvValidate x) evs \/ (exists q, In (EvRequest q x) evs) -> P x.
Proof.
  intros E [ev [T K]] N I. unfold new_events in N. cbn in T. rewrite E, N in T. apply app_inv_head in T. subst ev.
  apply K. tauto.
Qed.

(** The servers that show secrets do so on these occasions. *)
Lemma secret_shown es s i script r out s' evs x b :
  step es s i script = (r, out, s') -> new_events s s' evs -> shown evs x -> secret_in x b ->
  (In (EvValidate x) evs \/ exists q, In (EvRequest q x) evs) /\
  (s_mech s = XPlainS \/ (exists l, s_mech s = XLoginS l) \/ (exists l, s_mech s = XXOAuth2S l) \/
   exists l, s_mech s = XOAuthBearerS l).
Proof.
  intros H N S G. pose proof (only_documented _ _ _ _ _ _ _ _ H N) as D. rewrite Forall_forall in D.
  assert (In' : forall l, answering x l -> In PPassword l \/ In POAuthBearerToken l).
  { intros l An. destruct G as [G|G]; [left|right]; apply An; rewrite G; discriminate. }
  assert (exists l, answering x l /\ (answered_by (s_mech s) l \/ (exists p, requests (s_mech s) p l) \/
                                      (exists p, acts (s_mech s) p l))) as (l & An & W).
  { destruct S as [S|[[p S]|[p [v S]]]]; apply D in S; destruct S as [l [S Z]]; exists l; eauto. }
  split.
  - destruct S as [S|[S|[p [v S]]]]; [auto|auto|]. apply D in S. destruct S as [l' [Y Z]]. apply In' in Z.
    inversion Y; subst l'; cbn in Z; intuition discriminate.
  - apply In' in An.
    destruct W as [W|[[p W]|[p W]]]; inversion W; subst l; cbn in An; try (intuition discriminate); eauto 8.
Qed.

Lemma login_client_secret e s i script st out s' :
  s_mech s = XLoginC LcPassword -> step e s i script = (Ok st, out, s') ->
  exists evs, new_events s s' evs /\ answers PPassword evs = [out].
Proof.
  intros M H. apply run_ok in H. destruct H as [m' [w' [H [-> ->]]]]. rewrite M in H.
  unfold mech_step, bind at 1, getl in H. apply on_eq in H. destruct H as [l' [H _]].
  unfold login_client_step in H. unfold bind at 1, getl in H. inv_bind H. apply need_with_ok in H0.
  destruct H0 as [v [cs1 [cs2 [w1 [H1 [H2 [H0 ->]]]]]]]. apply write_all_ok in H0. destruct H0 as [-> H0].
  unfold bind, setl, ret in H. injection H as _ _ <-.
  exists ((EvRequest PPassword empty_provider :: cs1 ++ [EvAnswer PPassword v]) ++ cs2).
  destruct (request_did _ _ _ _ cs2 _ _ _ H0) as (T & O & _). split; [exact T|].
  rewrite request_answers by assumption. rewrite answers_answer. cbn in O. cbn. rewrite O. reflexivity.
Qed.

(** ** The servers, one by one *)

Lemma plain_secret es s z a p script r out s' evs x b :
  s_mech s = XPlainS -> nul_free z -> nul_free a -> nul_free p ->
  step es s (Some (plain_message z a p)) script = (r, out, s') -> new_events s s' evs ->
  In (EvValidate x) evs \/ (exists q, In (EvRequest q x) evs) -> secret_in x b -> prepared_password es p b.
Proof.
  intros M Fz Fa Fp H N S G.
  destruct (plain_server_exact _ _ _ _ _ _ _ M H) as [_ [(z' & a' & p' & c & Ac & N1 & O & _)|[_ [N1 _]]]];
    unfold new_events in N, N1; rewrite N1 in N; apply app_inv_head in N; subst evs.
  - destruct S as [[[= ->]|[]]|[q [Y|[]]]]; [|discriminate Y]. destruct O as (_ & _ & Op & On).
    destruct Ac as (a0 & p0 & E & _ & F1 & F2 & F3 & _ & _ & _ & Pp).
    apply plain_message_inj in E; [|assumption..]. destruct E as (_ & _ & ->).
    destruct G as [G|G]; [rewrite Op in G; injection G as <-; exact Pp|].
    rewrite On in G by discriminate. discriminate G.
  - destruct S as [[]|[q []]].
Qed.

Lemma login_secret es s l msg script r out s' evs x b :
  s_mech s = XLoginS l -> step es s (Some msg) script = (r, out, s') -> new_events s s' evs ->
  In (EvValidate x) evs \/ (exists q, In (EvRequest q x) evs) -> secret_in x b -> (exists u, l = LsPass u) /\ b = msg.
Proof.
  intros M H N S G. apply run_ok in H. destruct H as [m' [w' [H [-> ->]]]]. rewrite M in *.
  unfold mech_step, bind at 1, getl in H. apply on_eq in H. destruct H as [l' [H _]].
  refine (seen_events (fun c => secret_in c b -> (exists u, l = LsPass u) /\ b = msg) _ _ _ _ w' _ _ N S G); [reflexivity|].
  unfold login_server_step in H.
  match type of H with bind getl ?f ?l ?w = _ =>
    assert (Z : keeps (seen (fun c => secret_in c b -> (exists u, l = LsPass u) /\ b = msg)) (f l)) end.
  { destruct l as [| |u|]; seens. apply seen_validate. intros [[= <-]|Y]; [eauto|discriminate Y]. }
  pose proof (seen_at _ _ l (mk_world [] script (s_trace s) (s_rng s) (s_val s)) Z) as Q. rewrite H in Q. exact Q.
Qed.

Lemma seen_err {L A B} P y (f : A -> M L B) : keeps (seen P) (bind (of_res (Err y)) f).
Proof. exact (keeps_fail _ (seen_frame P) y). Qed.
Lemma seen_panic {L A B} P (f : A -> M L B) : keeps (seen P) (bind (of_res Panic) f).
Proof. exact (keeps_panic _ (seen_frame P)). Qed.
Lemma seen_json {L} P e x : keeps (seen P) (@write_json L e x).
Proof.
  intros l w. unfold write_json.
  assert (K : keeps (seen P) (@write_all L (e_json_to e x))) by (apply keeps_write_all, seen_writes).
  specialize (K l w). destruct (write_all (e_json_to e x) l w) as [[[]]]; exact K.
Qed.

Lemma xoauth2_secret es s l msg script r out s' evs x b :
  s_mech s = XXOAuth2S l -> step es s (Some msg) script = (r, out, s') -> new_events s s' evs ->
  In (EvValidate x) evs \/ (exists q, In (EvRequest q x) evs) -> secret_in x b ->
  l = OsInitial /\ exists a, xoauth2_parse msg = Ok (a, b).
Proof.
  intros M H N S G. apply run_ok in H. destruct H as [m' [w' [H [-> ->]]]]. rewrite M in *.
  unfold mech_step, bind at 1, getl in H. apply on_eq in H. destruct H as [l' [H _]].
  refine (seen_events (fun c => secret_in c b -> l = OsInitial /\ exists a, xoauth2_parse msg = Ok (a, b))
    _ _ _ _ w' _ _ N S G); [reflexivity|].
  unfold xoauth2_server_step in H.
  match type of H with bind getl ?f ?l ?w = _ =>
    assert (Z : keeps (seen (fun c => secret_in c b -> l = OsInitial /\ exists a, xoauth2_parse msg = Ok (a, b))) (f l)) end.
  { destruct l; [|seens]. destruct (xoauth2_parse msg) as [[a t]|y|] eqn:Ep; cbn [rmap_err];
      [|apply seen_err|apply seen_panic].
    assert (Rp : secret_in (xoauth2_provider a t) b -> OsInitial = OsInitial /\ exists a0, Ok (a, t) = @Ok mecherr _ (a0, b)).
    { intros [Y|[= <-]]; [discriminate Y|eauto]. }
    apply keeps_of_ok. apply (keeps_bind _ (seen_frame _)).
    - apply seen_need; [exact Rp|]. intros v. seens.
    - intros st. apply (keeps_bind _ (seen_frame _)); [apply seen_validate; exact Rp|intros _; seens]. }
  pose proof (seen_at _ _ l (mk_world [] script (s_trace s) (s_rng s) (s_val s)) Z) as Q. rewrite H in Q. exact Q.
Qed.

Lemma bearer_secret es s l msg script r out s' evs x b :
  s_mech s = XOAuthBearerS l -> step es s (Some msg) script = (r, out, s') -> new_events s s' evs ->
  In (EvValidate x) evs \/ (exists q, In (EvRequest q x) evs) -> secret_in x b ->
  l = OsInitial /\ exists m, ob_parse msg = Ok m /\ om_token m = b.
Proof.
  intros M H N S G. apply run_ok in H. destruct H as [m' [w' [H [-> ->]]]]. rewrite M in *.
  unfold mech_step, bind at 1, getl in H. apply on_eq in H. destruct H as [l' [H _]].
  refine (seen_events (fun c => secret_in c b -> l = OsInitial /\ exists m, ob_parse msg = Ok m /\ om_token m = b)
    _ _ _ _ w' _ _ N S G); [reflexivity|].
  unfold oauthbearer_server_step in H.
  match type of H with bind getl ?f ?l ?w = _ =>
    assert (Z : keeps (seen (fun c => secret_in c b -> l = OsInitial /\ exists m, ob_parse msg = Ok m /\ om_token m = b)) (f l)) end.
  { destruct l; [|seens]. destruct (ob_parse msg) as [om|y|] eqn:Ep; cbn [rmap_err];
      [|apply seen_err|apply seen_panic].
    assert (Rp : secret_in (oauthbearer_provider om) b ->
      OsInitial = OsInitial /\ exists m, @Ok obparseerr _ om = Ok m /\ om_token m = b).
    { destruct om as [z t kv]. destruct (oauthbearer_provider_offers z t kv) as (_ & Ot & _ & On).
      intros [Y|Y]; [rewrite On in Y by discriminate; discriminate Y|]. rewrite Ot in Y. injection Y as <-. eauto. }
    apply keeps_of_ok. apply (keeps_bind _ (seen_frame _)).
    - apply seen_need; [exact Rp|]. intros v. destruct v; [|seens].
      apply (keeps_bind _ (seen_frame _)); [apply seen_json|intros _; seens].
    - intros st. apply (keeps_bind _ (seen_frame _)); [apply seen_validate; exact Rp|intros _; seens]. }
  pose proof (seen_at _ _ l (mk_world [] script (s_trace s) (s_rng s) (s_val s)) Z) as Q. rewrite H in Q. exact Q.
Qed.

(** ** Exchanges *)

Lemma secrets_late evs evs1 p :
  In p (answers PPassword evs1) \/ In p (answers POAuthBearerToken evs1) -> In p (secrets (evs ++ evs1)).
Proof.
  intros H. unfold secrets. apply in_or_app.
  destruct H as [H|H]; [left|right]; rewrite answers_app; apply in_or_app; auto.
Qed.

Lemma chat_events ec es m c0 s0 n sd i c s : chat ec es m c0 s0 n sd i c s -> exists evs, new_events c0 c evs.
Proof.
  intros H. induction H as [|n i c s script out c' H [evs N] Z E|]; [exists []; unfold new_events; rewrite app_nil_r; reflexivity| |assumption].
  destruct (step_events _ _ _ _ _ _ _ E) as [evs1 N1]. exists (evs ++ evs1).
  unfold new_events in *. rewrite N1, N, app_assoc. reflexivity.
Qed.

Lemma proper_late m evs evs1 : proper_secrets m (evs ++ evs1) -> proper_secrets m evs1.
Proof.
  intros [P Q]. split; [exact (proj2 (proper_part _ _ _ P))|]. intros E. destruct (Q E) as (Q1 & Q2 & Q3).
  split; [|split]; intros y Y; [apply Q1|apply Q2|apply Q3]; apply answers_part; auto.
Qed.

Theorem secrets_arrive ec es reg m c0 s0 c s msg evs script r out s' evs' x b :
  begun reg SClient m c0 -> begun reg SServer m s0 -> polite ec ->
  told ec es m c0 s0 c s msg -> new_events c0 c evs -> proper_secrets m evs ->
  step es s (Some msg) script = (r, out, s') -> new_events s s' evs' -> shown evs' x ->
  secret_in x b -> exists p, In p (secrets evs) /\ secret_as es m p b.
Proof.
  intros Bc Bs Po (n & i & cb & sc & st & H & Z & E) N P K N' S G.
  pose proof (begun_server _ _ _ _ Bs (chat_impl _ _ _ _ _ _ _ _ _ _ H)) as Q.
  destruct (secret_shown _ _ _ _ _ _ _ _ _ _ K N' S G) as [S' W].
  assert (NG : m <> DGssapi).
  { intros ->. destruct W as [W|[[l W]|[[l W]|[l W]]]]; rewrite W in Q; discriminate Q. }
  pose proof (talk_stage _ _ _ _ _ _ _ _ _ _ _ NG Bc Bs (chat_talk _ _ _ _ _ _ _ _ _ _ H)) as T.
  destruct (chat_events _ _ _ _ _ _ _ _ _ _ H) as [ev0 N0]. destruct (step_events _ _ _ _ _ _ _ E) as [ev1 N1].
  rewrite (new_events_split _ _ _ _ _ _ N0 N1 N) in *. apply proper_late in P. destruct P as [Pn Pb].
  assert (Same : forall ev, new_events cb c ev -> ev = ev1).
  { intros ev Y. unfold new_events in Y, N1. rewrite N1 in Y. apply app_inv_head in Y. auto. }
  destruct W as [W|[[l W]|[[l W]|[l W]]]]; rewrite W in Q, T; subst m.
  - inversion T; subst. match goal with Y : _ = s_mech cb |- _ => symmetry in Y; rename Y into Mc end.
    destruct (plain_client_any _ _ _ _ _ _ _ Mc E) as (ev & z & a & p & Y & _ & -> & _ & _ & Fz & Fa & Fp & _ & Ap & _).
    apply Same in Y. subst ev. exists p. split; [apply secrets_late; left; rewrite Ap; left; reflexivity|].
    exact (plain_secret _ _ _ _ _ _ _ _ _ _ _ _ W Fz Fa Fp K N' S' G).
  - destruct (login_secret _ _ _ _ _ _ _ _ _ _ _ W K N' S' G) as [[u ->] ->].
    inversion T; subst. match goal with Y : _ = s_mech cb |- _ => symmetry in Y; rename Y into Mc end.
    destruct (login_client_secret _ _ _ _ _ _ _ Mc E) as (ev & Y & Ap). apply Same in Y. subst ev.
    exists msg. split; [apply secrets_late; left; rewrite Ap; left; reflexivity|reflexivity].
  - destruct (xoauth2_secret _ _ _ _ _ _ _ _ _ _ _ W K N' S' G) as [-> [a' Ep]].
    inversion T; subst. match goal with Y : _ = s_mech cb |- _ => symmetry in Y; rename Y into Mc end.
    destruct (xoauth2_client_message _ _ _ _ _ _ _ Mc Z E) as (ev & a & t & Y & _ & -> & Aa & At).
    apply Same in Y. subst ev. destruct Pn as [[T1 _] [U F]].
    assert (Ia : In a (answers PAuthId ev1)) by (rewrite Aa; left; reflexivity).
    rewrite xoauth2_parse_message in Ep;
      [|exact (F eq_refl a Ia)|exact (T1 a Ia)|apply U; rewrite At; left; reflexivity].
    injection Ep as _ ->. exists b. split; [apply secrets_late; right; rewrite At; left; reflexivity|reflexivity].
  - destruct (bearer_secret _ _ _ _ _ _ _ _ _ _ _ W K N' S' G) as [-> [om [Ep Eb]]].
    inversion T; subst. match goal with Y : _ = s_mech cb |- _ => symmetry in Y; rename Y into Mc end.
    destruct (oauthbearer_client_message _ _ _ _ _ _ _ Mc Po Z E) as (ev & z & kv & t & Y & _ & -> & Az & Ak & At).
    apply Same in Y. subst ev. destruct Pn as [_ [U _]]. destruct (Pb eq_refl) as (P1 & P2 & P3).
    assert (It : In t (answers POAuthBearerToken ev1)) by (rewrite At; left; reflexivity).
    rewrite ob_parse_message in Ep.
    + injection Ep as <-. exists t. split; [apply secrets_late; right; exact It|reflexivity].
    + destruct z as [z|]; [|exact Logic.I]. apply P1. rewrite Az. left. reflexivity.
    + destruct kv as [kv|]; [|constructor]. apply P2. rewrite Ak. left. reflexivity.
    + exact (P3 _ It).
    + exact (U _ It).
Qed.

(** ** The same secret at two mechanisms *)

Lemma consulted_shown evs q P : consulted evs q P -> exists c, shown evs c /\ P c.
Proof. intros (c & rest & -> & Pc & _). exists c. split; [right; left; exists q; left; reflexivity|exact Pc]. Qed.

Theorem tokens_apart es ec1 cx i1 sc1 st1 m1 cx1 ev1 sx sc1' r1 out1 sx1 a t
    ec2 cb i2 sc2 st2 m2 cb1 ev2 sb sc2' r2 out2 sb1 :
  s_mech cx = XXOAuth2C OcInitial -> no_zero sc1 -> step ec1 cx i1 sc1 = (Ok st1, m1, cx1) -> new_events cx cx1 ev1 ->
  answers PAuthId ev1 = [a] -> answers POAuthBearerToken ev1 = [t] ->
  free (chr 1) a -> utf8_valid a = true -> free (chr 1) t -> utf8_valid t = true ->
  s_mech sx = XXOAuth2S OsInitial -> step es sx (Some m1) sc1' = (r1, out1, sx1) ->
  s_mech cb = XOAuthBearerC OcInitial -> polite ec2 -> no_zero sc2 ->
  step ec2 cb i2 sc2 = (Ok st2, m2, cb1) -> new_events cb cb1 ev2 -> proper_secrets DOAuthBearer ev2 ->
  answers POAuthBearerToken ev2 = [t] ->
  s_mech sb = XOAuthBearerS OsInitial -> step es sb (Some m2) sc2' = (r2, out2, sb1) ->
  exists evx evb c c', new_events sx sx1 evx /\ shown evx c /\ new_events sb sb1 evb /\ shown evb c' /\
    get_ref c POAuthBearerToken = Some t /\ get_ref c' POAuthBearerToken = Some (lit "Bearer " ++ t) /\
    ~ secret_in c' t.
Proof.
  intros M1 Z1 H1 N1 A1 T1 Fa Ua Ft Ut S1 K1 M2 Po Z2 H2 N2 [_ Pb] T2 S2 K2.
  destruct (xoauth2_client_message _ _ _ _ _ _ _ M1 Z1 H1) as (ev & a' & t' & Y & _ & -> & Aa & At).
  assert (ev = ev1) as -> by (unfold new_events in Y, N1; rewrite N1 in Y; apply app_inv_head in Y; auto).
  rewrite A1 in Aa. injection Aa as <-. rewrite T1 in At. injection At as <-.
  destruct (xoauth2_server_sees _ _ _ _ _ _ _ _ S1 Fa Ua Ut K1) as (evx & Nx & Cx).
  destruct (consulted_shown _ _ _ Cx) as (c & Sc & (_ & Gc & _)).
  destruct (oauthbearer_client_message _ _ _ _ _ _ _ M2 Po Z2 H2) as (ev & z & kv & t' & Y' & _ & -> & Az & Ak & At).
  assert (ev = ev2) as -> by (unfold new_events in Y', N2; rewrite N2 in Y'; apply app_inv_head in Y'; auto).
  rewrite T2 in At. injection At as <-. destruct (Pb eq_refl) as (P1 & P2 & _).
  assert (Oz : sendable_authzid z) by (destruct z as [z|]; [apply P1; rewrite Az; left; reflexivity|exact Logic.I]).
  assert (Ok' : Forall sendable_pair (match kv with Some l => l | None => [] end)).
  { destruct kv as [kv|]; [apply P2; rewrite Ak; left; reflexivity|constructor]. }
  destruct (oauthbearer_server_sees _ _ _ _ _ _ _ _ _ S2 Oz Ok' Ft Ut K2) as (evb & Nb & Cb).
  destruct (consulted_shown _ _ _ Cb) as (c' & Sc' & (_ & Gb & _ & On)).
  exists evx, evb, c, c'. do 6 (split; [assumption|]).
  intros [G|G]; [rewrite On in G by discriminate; discriminate G|].
  rewrite Gb in G. assert (Q : lit "Bearer " ++ t = t) by congruence. clear G. rename Q into G. apply (f_equal (@length byte)) in G.
  change (7 + @length byte t = @length byte t) in G. lia.
Qed.

Theorem passwords_apart es ec1 cp i1 sc1 st1 m1 cp1 ev1 sp sc1' r1 out1 sp1 p b
    ec2 cl i2 sc2 st2 m2 cl1 ev2 sl u sc2' r2 out2 sl1 :
  s_mech cp = XPlainC -> step ec1 cp i1 sc1 = (Ok st1, m1, cp1) -> new_events cp cp1 ev1 ->
  answers PPassword ev1 = [p] -> utf8_valid p = true -> prepared es p b ->
  s_mech sp = XPlainS -> step es sp (Some m1) sc1' = (Ok r1, out1, sp1) ->
  s_mech cl = XLoginC LcPassword -> step ec2 cl i2 sc2 = (Ok st2, m2, cl1) -> new_events cl cl1 ev2 ->
  answers PPassword ev2 = [p] ->
  s_mech sl = XLoginS (LsPass u) -> step es sl (Some m2) sc2' = (Ok r2, out2, sl1) ->
  exists c c', new_events sp sp1 [EvValidate c] /\ new_events sl sl1 [EvValidate c'] /\
    get_ref c PPassword = Some b /\ get_ref c' PPassword = Some p.
Proof.
  intros M1 H1 N1 A1 Up Pb S1 K1 M2 H2 N2 A2 S2 K2.
  destruct (plain_client_any _ _ _ _ _ _ _ M1 H1) as (ev & z & a & p' & Y & _ & -> & _ & _ & Fz & Fa & Fp & _ & Ap & _).
  assert (ev = ev1) as -> by (unfold new_events in Y, N1; rewrite N1 in Y; apply app_inv_head in Y; auto).
  rewrite A1 in Ap. injection Ap as <-.
  destruct (plain_server_exact _ _ _ _ _ _ _ S1 K1) as [_ [(z' & a' & p' & c & Ac & Np & O & _)|[_ [_ [x K]]]]];
    [|discriminate K].
  destruct Ac as (a0 & p0 & Em & _ & F1 & F2 & F3 & _ & _ & _ & Pp).
  apply plain_message_inj in Em; [|assumption..]. destruct Em as (_ & _ & <-).
  unfold prepared_password in Pp. rewrite Up in Pp. destruct Pp as [Pp _], Pb as [Pb _].
  rewrite Pb in Pp. injection Pp as <-. destruct O as (_ & _ & Op & _).
  destruct (login_client_secret _ _ _ _ _ _ _ M2 H2) as (ev & Y' & Al).
  assert (ev = ev2) as -> by (unfold new_events in Y', N2; rewrite N2 in Y'; apply app_inv_head in Y'; auto).
  rewrite A2 in Al. injection Al as <-.
  exists c, (login_provider u p). split; [exact Np|]. split; [|split; [exact Op|reflexivity]].
  apply run_ok in K2. destruct K2 as [m' [w' [H [_ ->]]]]. rewrite S2 in H.
  unfold mech_step, bind at 1, getl in H. apply on_eq in H. destruct H as [l' [H _]].
  unfold login_server_step in H. unfold bind at 1, getl in H. unfold bind at 1, validate in H.
  destruct (run_validate _ _ _) as [rv sv]. destruct rv; try discriminate H.
  unfold bind, setl, ret in H. injection H as _ _ <-. reflexivity.
Qed.

Lemma secret_same es m p b : secret_as es m p b -> m <> DOAuthBearer -> (utf8_valid p = true -> prepared es p p) -> b = p.
Proof.
  intros H NB P. destruct m; try contradiction H; try exact H; try (contradiction NB; reflexivity).
  cbn in H. unfold prepared_password in H. destruct (utf8_valid p); destruct H as [H _]; [|exact H].
  destruct (P eq_refl) as [P' _]. rewrite P' in H. injection H as <-. reflexivity.
Qed.
