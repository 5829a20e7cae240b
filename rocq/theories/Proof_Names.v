(** Lemmas for C127. *)
From Verif Require Import Bytes BytesFacts Utf8 Types World CallbackSpec WorldFacts MonadFacts Simple OAuth ScramParser
  Scram Gssapi Session Registry Frame Spec_Simple Spec_OAuth Spec_Scram Spec_Registry Spec_Order Spec_History Spec_Errors
  Spec_Docs Spec_Talk Proof_Simple Proof_OAuth Proof_Scram Proof_ScramRun Proof_ScramMain Proof_Errors Proof_Docs Proof_Talk Proof_Authzid Proof_Empty
  Spec_Names.
Open Scope m_scope.

(** * What a server shows *)

Definition same_name (es : env) (m : mech) (a b : bytes) : Prop :=
  match m with
  | XPlainS => prepared es a b
  | XScramS _ _ => escape a = Ok b
  | _ => b = a
  end.

(** The server has been told, or is being told, one of the names [A]. *)
Definition knows (A : bytes -> Prop) (i : option bytes) (m : mech) : Prop :=
  match m with
  | XPlainS => exists z a p, i = Some (plain_message z a p) /\ nul_free z /\ nul_free a /\ nul_free p /\ A a
  | XLoginS (LsPass u) => A u
  | XXOAuth2S OsInitial => exists a t, i = Some (xoauth2_message a t) /\ free (chr 1) a /\
      utf8_valid a = true /\ utf8_valid t = true /\ A a
  | XScramS _ (Some (SsClientFirst _)) => exists msg cf a, i = Some msg /\ client_first_parse msg = Ok cf /\
      A a /\ escape a = Ok (cf_username cf)
  | XScramS _ (Some (SsClientFinal (Some d))) => exists a, A a /\ escape a = Ok (fi_username d)
  | _ => True
  end.

Definition right (es : env) (A : bytes -> Prop) (m : mech) (c : ctx) : Prop :=
  forall b, get_ref c PAuthId = Some b -> exists a, A a /\ same_name es m a b.

Lemma seen_validate {L} (P : ctx -> Prop) e c : P c -> keeps (seen P) (@validate L e c).
Proof.
  intros H l w. unfold validate. destruct (run_validate _ _ _) as [r s].
  destruct r; (exists [EvValidate c]; split; [reflexivity|]; intros x [[q [K|[]]]|[K|[]]]; [discriminate K|];
    injection K as <-; exact H).
Qed.

Lemma keeps_of_ok {L A B} W (x : A) (f : A -> M L B) : keeps W (f x) -> keeps W (bind (of_res (Ok x)) f).
Proof. intros H l w. exact (H l w). Qed.
Lemma seen_need {L G} (P : ctx -> Prop) e q c (f : pval q -> M L G) :
  P c -> (forall v, keeps (seen P) (f v)) -> keeps (seen P) (need_with e q c f).
Proof.
  intros Hc Hf. unfold need_with. apply (keeps_bind _ (seen_frame P)); [apply seen_maybe; assumption|].
  intros [g|]; [apply (keeps_ret _ (seen_frame P))|apply (keeps_fail _ (seen_frame P))].
Qed.

Ltac seens :=
  repeat first
  [ apply (keeps_ret _ (seen_frame _)) | apply (keeps_fail _ (seen_frame _)) | apply (keeps_panic _ (seen_frame _))
  | apply (keeps_getl _ (seen_frame _)) | apply (keeps_setl _ (seen_frame _)) | apply (keeps_of_res _ (seen_frame _))
  | apply keeps_write_all, seen_writes | apply keeps_write_all_vectored, seen_writes
  | apply (keeps_bind _ (seen_frame _)); [|intros ?]
  | match goal with |- keeps _ (match ?x with _ => _ end) => destruct x end
  | match goal with |- keeps _ (if ?x then _ else _) => destruct x end ].

Lemma seen_at {L A} P (f : L -> M L A) (l : L) w : keeps (seen P) (f l) ->
  match bind getl f l w with (_, _, w') => seen P w w' end.
Proof. intros H. exact (H l w). Qed.

Lemma right_events es A m s s' evs x w :
  w_trace w = s_trace s' -> seen (right es A m) (mk_world [] [] (s_trace s) 0 None) w ->
  new_events s s' evs -> In (EvValidate x) evs \/ (exists q, In (EvRequest q x) evs) -> right es A m x.
Proof.
  intros E [ev [T K]] N I. unfold new_events in N. cbn in T. rewrite E, N in T. apply app_inv_head in T. subst ev.
  apply K. tauto.
Qed.

Theorem server_shows es A i s script r out s' evs x b :
  knows A i (s_mech s) -> step es s i script = (r, out, s') -> new_events s s' evs -> shown evs x ->
  get_ref x PAuthId = Some b -> exists a, A a /\ same_name es (s_mech s) a b.
Proof.
  intros K H N S G. pose proof (only_documented _ _ _ _ _ _ _ _ H N) as D. rewrite Forall_forall in D.
  assert (exists l, answering x l /\ (answered_by (s_mech s) l \/ (exists p, requests (s_mech s) p l) \/
                                      (exists p, acts (s_mech s) p l))) as (l & An & W).
  { destruct S as [S|[[p S]|[p [v S]]]]; apply D in S; destruct S as [l [S Z]]; exists l; eauto. }
  assert (I : In PAuthId l) by (apply An; rewrite G; discriminate).
  assert (NA : forall p v, ~ In (EvAction p v x) evs).
  { intros p v Y. apply D in Y. destruct Y as [l' [Y Z]].
    assert (J : In PAuthId l') by (apply Z; rewrite G; discriminate).
    inversion Y; subst l'; cbn in J; intuition discriminate. }
  assert (S' : In (EvValidate x) evs \/ (exists q, In (EvRequest q x) evs)).
  { destruct S as [S|[S|[p [v S]]]]; [auto|auto|destruct (NA _ _ S)]. }
  clear S NA D.
  assert (M : s_mech s = XPlainS \/ (exists l, s_mech s = XLoginS l) \/ (exists l, s_mech s = XXOAuth2S l) \/
              exists a l, s_mech s = XScramS a l).
  { destruct W as [W|[[p W]|[p W]]]; inversion W; subst l; cbn in I; try (intuition discriminate); eauto 8. }
  clear W I An l.
  assert (R : right es A (s_mech s) x); [|exact (R _ G)].
  destruct M as [M|[[l M]|[[l M]|[a [l M]]]]].
  - rewrite M in *. destruct K as (z & a & p & -> & Fz & Fa & Fp & Aa).
    intros y Gy. rewrite G in Gy. injection Gy as <-. exists a. split; [exact Aa|].
    destruct (plain_server_exact _ _ _ _ _ _ _ M H) as [_ [(z' & a' & p' & c1 & Ac & N1 & O & _)|[_ [N1 _]]]];
      unfold new_events in N, N1; rewrite N1 in N; apply app_inv_head in N; subst evs.
    + destruct S' as [[[= ->]|[]]|[q [Y|[]]]]; [|discriminate Y].
      destruct O as (_ & Oa & _). rewrite Oa in G. injection G as <-.
      destruct Ac as (a0 & p0 & E & _ & F1 & F2 & F3 & _ & _ & Pa & _).
      apply plain_message_inj in E; [|assumption..]. destruct E as (_ & -> & _). exact Pa.
    + destruct S' as [[]|[q []]].
  - apply run_ok in H. destruct H as [m' [w' [H [-> ->]]]]. rewrite M in *.
    unfold mech_step, bind at 1, getl in H. apply on_eq in H. destruct H as [l' [H _]].
    refine (right_events _ _ _ _ _ _ _ w' _ _ N S'); [reflexivity|].
    unfold login_server_step in H.
    match type of H with bind getl ?f ?l ?w = _ => assert (Z : keeps (seen (right es A (XLoginS l))) (f l)) end.
    { destruct l as [| |u|]; seens. apply seen_validate. intros y [= <-]. exists u. split; [exact K|reflexivity]. }
    pose proof (seen_at _ _ l (mk_world [] script (s_trace s) (s_rng s) (s_val s)) Z) as Q. rewrite H in Q. exact Q.
  - apply run_ok in H. destruct H as [m' [w' [H [-> ->]]]]. rewrite M in *.
    unfold mech_step, bind at 1, getl in H. apply on_eq in H. destruct H as [l' [H _]].
    refine (right_events _ _ _ _ _ _ _ w' _ _ N S'); [reflexivity|].
    unfold xoauth2_server_step in H.
    match type of H with bind getl ?f ?l ?w = _ => assert (Z : keeps (seen (right es A (XXOAuth2S l))) (f l)) end.
    { destruct l; [|seens]. destruct K as (a & t & -> & Fa & Ua & Ut & Aa).
      rewrite xoauth2_parse_message by assumption. cbn [rmap_err].
      assert (Rp : right es A (XXOAuth2S OsInitial) (xoauth2_provider a t)).
      { intros y [= <-]. exists a. split; [exact Aa|reflexivity]. }
      apply keeps_of_ok. apply (keeps_bind _ (seen_frame _)).
      - apply seen_need; [exact Rp|]. intros v. seens.
      - intros st. apply (keeps_bind _ (seen_frame _)); [apply seen_validate; exact Rp|intros _; seens]. }
    pose proof (seen_at _ _ l (mk_world [] script (s_trace s) (s_rng s) (s_val s)) Z) as Q. rewrite H in Q. exact Q.
  - apply run_ok in H. destruct H as [m' [w' [H [-> ->]]]]. rewrite M in *.
    unfold mech_step, bind at 1, getl in H. apply on_eq in H. destruct H as [l' [H _]].
    refine (right_events _ _ _ _ _ _ _ w' _ _ N S'); [reflexivity|].
    unfold scram_server_step in H.
    match type of H with bind getl ?f ?l ?w = _ => assert (Z : keeps (seen (right es A (XScramS a l))) (f l)) end.
    { apply (keeps_bind _ (seen_frame _)); [seens|intros _]. destruct l as [[plus|[d|]|]|].
      - destruct K as (msg & cf & n & -> & Pm & An & E).
        apply (keeps_bind _ (seen_frame _)); [|intros [d g]; seens]. apply keeps_locally.
        intros l0 w0. pose proof (seen_hcf es a plus msg cf Pm l0 w0) as Q.
        destruct (handle_client_first es a plus msg l0 w0) as [[r1 l1] w1]. destruct Q as [ev [T Q]].
        exists ev. split; [exact T|]. intros c Hc y Gy. destruct (Q c Hc) as [Q1 _]. rewrite Q1 in Gy.
        injection Gy as <-. eauto.
      - destruct K as (n & An & E). destruct i as [msg|]; [|seens].
        apply (keeps_bind _ (seen_frame _)); [|intros _; seens]. unfold handle_client_final.
        unfold scram_parse, scram_proto, send_final, exact. seens.
        apply seen_validate. intros y Gy. exists n. split; [exact An|]. cbn in Gy.
        unfold scram_server_provider in Gy. destruct (fi_authzid d); cbn in Gy; injection Gy as <-; exact E.
      - destruct i as [msg|]; [|seens]. unfold handle_client_final, scram_parse, send_final. seens.
      - seens.
      - seens. }
    pose proof (seen_at _ _ l (mk_world [] script (s_trace s) (s_rng s) (s_val s)) Z) as Q. rewrite H in Q. exact Q.
Qed.

(** * Exchanges *)

(** What the server remembers. *)
Definition heard (A : bytes -> Prop) (m : mech) : Prop :=
  match m with
  | XLoginS (LsPass u) => A u
  | XScramS _ (Some (SsClientFinal (Some d))) => exists a, A a /\ escape a = Ok (fi_username d)
  | _ => True
  end.
Definition coming (A : bytes -> Prop) (i : option bytes) (m : mech) : Prop :=
  knows A i m /\ (m = XLoginS LsUser -> exists x, i = Some x /\ A x).
Lemma heard_mono (A B : bytes -> Prop) m : (forall x, A x -> B x) -> heard A m -> heard B m.
Proof.
  intros I. destruct m as [| |?|[]| | | | |?|?|?|?|? ?|? [[?|[d|]|]|]|?|?]; cbn; auto. intros (n & Aa & E). eauto.
Qed.

Lemma heard_next es A i s script out s' :
  coming A i (s_mech s) -> step es s i script = (Ok Running, out, s') -> heard A (s_mech s').
Proof.
  intros [K KL] H. pose proof (step_after _ _ _ _ _ _ _ H) as F. pose proof (impl_kept _ _ _ _ _ _ _ H) as J.
  destruct (s_mech s) as [| |?|l| | | | |?|?|?|?|ac lc|a l|?|?] eqn:M;
    try solve [destruct (s_mech s'); exact I || contradiction J].
  - destruct l as [| |u|]; cbn in F.
    + destruct F as [_ ->]. exact I.
    + destruct (KL eq_refl) as (x & -> & Ax). apply run_ok in H. destruct H as [m' [w' [H [_ ->]]]]. rewrite M in H.
      unfold mech_step, bind at 1, getl in H. apply on_eq in H. destruct H as [l' [H ->]]. cbn.
      unfold login_server_step in H. unfold bind at 1, getl in H. unfold from_utf8 in H.
      destruct (utf8_valid x); [|discriminate H]. unfold bind at 1 in H.
      destruct (write_all login_prompt2 LsUser _) as [[[]]]; [|discriminate H..].
      unfold bind, setl, ret in H. injection H as <- _. exact Ax.
    + discriminate F.
    + destruct F.
  - cbn in J. destruct (s_mech s') as [| |?|?| | | | |?|?|?|?|ac lc|a' l'|?|?] eqn:M'; try contradiction J; try exact I.
    destruct l as [[plus|d|]|]; cbn in F.
    + destruct K as (msg & cf & n & -> & Pm & An & E).
      destruct (server_first_any _ _ _ _ _ _ _ _ _ M H)
        as [evs [f [two [z [user [cn [t [data [_ [_ [_ [_ [Hf [_ [_ Hs]]]]]]]]]]]]]]].
      apply fields_parse in Hf. rewrite Pm in Hf. injection Hf as ->. cbn in E. cbv zeta in Hs.
      destruct Hs as [[sp [_ [_ [Hw _]]]]|[Hw _]]; unfold server_waits, server_pretends in Hw; rewrite M' in Hw;
        inversion Hw; subst; cbn; [eauto|exact I].
    + destruct F as [_ F]. discriminate F.
    + destruct F.
    + destruct F.
Qed.

Lemma new_events_split c0 c c' evs evs1 evs' :
  new_events c0 c evs -> new_events c c' evs1 -> new_events c0 c' evs' -> evs' = evs ++ evs1.
Proof.
  unfold new_events. intros E1 E2 E. rewrite E2, E1, <- app_assoc in E. apply app_inv_head in E. auto.
Qed.
Lemma step_events e s i script r out s' : step e s i script = (r, out, s') -> exists evs, new_events s s' evs.
Proof.
  intros H. apply run_ok in H. destruct H as [m' [w' [H [_ ->]]]].
  pose proof (step_ext e i (s_mech s) (mk_world [] script (s_trace s) (s_rng s) (s_val s))) as K. rewrite H in K.
  destruct K as [evs [o [K _]]].
  exists evs. exact K.
Qed.
Lemma answers_part {q} (x : pval q) evs evs1 :
  In x (answers q evs) \/ In x (answers q evs1) -> In x (answers q (evs ++ evs1)).
Proof. rewrite answers_app. apply in_or_app. Qed.
Lemma proper_part m evs evs1 : proper_names m (evs ++ evs1) -> proper_names m evs /\ proper_names m evs1.
Proof.
  intros [[T1 [T2 T3]] [U F]]. split.
  - split; [split; [|split]|split].
    + intros x H. apply T1, answers_part. auto.
    + intros x H. apply T2, answers_part. auto.
    + intros x H. apply T3, answers_part. auto.
    + intros x H. apply U, answers_part. auto.
    + intros E x H. apply (F E), answers_part. auto.
  - split; [split; [|split]|split].
    + intros x H. apply T1, answers_part. auto.
    + intros x H. apply T2, answers_part. auto.
    + intros x H. apply T3, answers_part. auto.
    + intros x H. apply U, answers_part. auto.
    + intros E x H. apply (F E), answers_part. auto.
Qed.

Lemma chat_talk ec es m c0 s0 n sd i c s : chat ec es m c0 s0 n sd i c s -> talk ec es m c0 s0 n sd i c s.
Proof. intros H. induction H; econstructor; eassumption. Qed.

Definition named (evs : list event) (a : bytes) : Prop := In a (answers PAuthId evs).

Lemma login_client_says e s i script st out s' :
  s_mech s = XLoginC LcAuthid -> step e s i script = (Ok st, out, s') ->
  exists evs, new_events s s' evs /\ answers PAuthId evs = [out].
Proof.
  intros M H. apply run_ok in H. destruct H as [m' [w' [H [-> ->]]]]. rewrite M in H.
  unfold mech_step, bind at 1, getl in H. apply on_eq in H. destruct H as [l' [H _]].
  unfold login_client_step in H. unfold bind at 1, getl in H. inv_bind H. apply need_with_ok in H0.
  destruct H0 as [v [cs1 [cs2 [w1 [H1 [H2 [H0 ->]]]]]]]. apply write_all_ok in H0. destruct H0 as [-> H0].
  unfold bind, setl, ret in H. injection H as _ _ <-.
  exists ((EvRequest PAuthId empty_provider :: cs1 ++ [EvAnswer PAuthId v]) ++ cs2).
  destruct (request_did _ _ _ _ cs2 _ _ _ H0) as (T & O & _). split; [exact T|].
  rewrite request_answers by assumption. rewrite answers_answer. cbn in O. cbn. rewrite O. reflexivity.
Qed.

Lemma client_says ec m c s n i script st msg c' evs1 :
  m <> DGssapi -> polite ec -> no_zero script -> stage n SClient (s_mech c) (s_mech s) ->
  (s_mech s = XXOAuth2S OsInitial -> m = DXOAuth2) ->
  step ec c i script = (Ok st, msg, c') -> new_events c c' evs1 -> proper_names m evs1 ->
  forall A : bytes -> Prop, (forall x, named evs1 x -> A x) -> heard A (s_mech s) ->
  coming A (Some msg) (s_mech s).
Proof.
  intros NG Po Z G MX H N Pn A I Hd. unfold coming.
  assert (Same : forall ev, new_events c c' ev -> ev = evs1).
  { intros ev E. unfold new_events in E, N. rewrite N in E. apply app_inv_head in E. auto. }
  remember (s_mech c) as mc eqn:Mc. remember (s_mech s) as ms eqn:Ms. symmetry in Mc, Ms.
  remember SClient as sd eqn:Sd. destruct G; try discriminate Sd;
    (split; [|intros K; try discriminate K]); try exact Logic.I.
  - destruct (plain_client_any _ _ _ _ _ _ _ Mc H)
      as (ev & z & a & p & E & _ & -> & _ & _ & Fz & Fa & Fp & Aa & _). apply Same in E. subst ev.
    exists z, a, p. repeat (split; [assumption || reflexivity|]). apply I. unfold named. rewrite Aa. left. reflexivity.
  - destruct (login_client_says _ _ _ _ _ _ _ Mc H) as (ev & E & Aa). apply Same in E. subst ev.
    exists msg. split; [reflexivity|]. apply I. unfold named. rewrite Aa. left. reflexivity.
  - exact Hd.
  - destruct (xoauth2_client_message _ _ _ _ _ _ _ Mc Z H) as (ev & a & t & E & _ & -> & Aa & At).
    apply Same in E. subst ev. destruct Pn as [[T1 _] [U F]].
    assert (Ia : In a (answers PAuthId evs1)) by (rewrite Aa; left; reflexivity).
    exists a, t. split; [reflexivity|]. split; [exact (F (MX eq_refl) a Ia)|]. split; [exact (T1 a Ia)|].
    split; [apply U; rewrite At; left; reflexivity|]. apply I. exact Ia.
  - destruct Pn as [Tx _].
    destruct (client_first_parses _ _ _ _ _ _ _ _ _ _ Mc Po Z H N Tx)
      as [f [z [zesc [user [uesc [Ha [Eu [_ [_ [_ [P _]]]]]]]]]]].
    exists msg, (mk_cf f zesc uesc (nonce_from ec (s_rng c))), user. split; [reflexivity|]. split; [exact P|].
    split; [apply I; unfold named; rewrite Ha; left; reflexivity|exact Eu].
  - exact Hd.
Qed.

Lemma named_part evs evs1 x : named evs x \/ named evs1 x -> named (evs ++ evs1) x.
Proof. exact (@answers_part PAuthId x evs evs1). Qed.

(** The server's side of an exchange. *)
Lemma chat_impl ec es m c0 s0 n sd i c s : chat ec es m c0 s0 n sd i c s -> same_impl (s_mech s0) (s_mech s).
Proof.
  intros H. induction H; [apply same_impl_refl|assumption|].
  eapply same_impl_trans; [eassumption|eapply impl_kept; eassumption].
Qed.
Lemma begun_server reg m s0 s :
  begun reg SServer m s0 -> same_impl (s_mech s0) (s_mech s) ->
  match s_mech s with
  | XPlainS => m = DPlain | XLoginS _ => m = DLogin | XXOAuth2S _ => m = DXOAuth2
  | XScramS a _ => exists p, m = DScram a p | XGssapiS _ => m = DGssapi
  | XExternalS => m = DExternal | XAnonymousS => m = DAnonymous | XOAuthBearerS _ => m = DOAuthBearer
  | _ => False
  end.
Proof.
  unfold begun. intros B J. remember (Builtin (s_mech s0)) as x eqn:E.
  destruct B; try discriminate E; injection E as E; rewrite <- E in J; cbn in J;
    destruct (s_mech s); try contradiction J; try reflexivity; subst; eauto.
Qed.

Lemma chat_names ec es reg m c0 s0 n sd i c s :
  begun reg SClient m c0 -> begun reg SServer m s0 -> m <> DGssapi -> polite ec ->
  chat ec es m c0 s0 n sd i c s ->
  exists evs, new_events c0 c evs /\
    (proper_names m evs ->
     match sd with SClient => heard (named evs) (s_mech s) | SServer => coming (named evs) i (s_mech s) end).
Proof.
  intros Bc Bs NG Po H. induction H as [|n i c s script out c' H IH Z E|n i c s script out s' H IH Z E].
  - exists []. split; [unfold new_events; rewrite app_nil_r; reflexivity|]. intros _.
    pose proof (start_stage _ _ _ _ NG Bc Bs) as G.
    remember 0 as k eqn:Ek. remember (s_mech c0) as mc eqn:Mc. remember (s_mech s0) as ms eqn:Ms.
    remember (initiator m) as sd eqn:Sd.
    destruct G; try discriminate Ek; cbn; try exact I. split; [exact I|discriminate].
  - destruct IH as (evs & N & IH). destruct (step_events _ _ _ _ _ _ _ E) as [evs1 N1].
    exists (evs ++ evs1). split; [unfold new_events in *; rewrite N1, N, app_assoc; reflexivity|]. intros P.
    destruct (proper_part _ _ _ P) as [P0 P1].
    refine (client_says _ m _ _ _ _ _ _ _ _ _ NG Po Z (talk_stage _ _ _ _ _ _ _ _ _ _ _ NG Bc Bs (chat_talk _ _ _ _ _ _ _ _ _ _ H))
      _ E N1 P1 _ _ _).
    + intros M. pose proof (begun_server _ _ _ _ Bs (chat_impl _ _ _ _ _ _ _ _ _ _ H)) as K. rewrite M in K. exact K.
    + intros x K. apply named_part. auto.
    + apply (heard_mono (named evs)); [intros x K; apply named_part; auto|]. apply IH. exact P0.
  - destruct IH as (evs & N & IH). exists evs. split; [exact N|]. intros P.
    exact (heard_next _ _ _ _ _ _ _ (IH P) E).
Qed.

Theorem names_arrive ec es reg m c0 s0 c s msg evs script r out s' evs' x b :
  begun reg SClient m c0 -> begun reg SServer m s0 -> polite ec ->
  told ec es m c0 s0 c s msg -> new_events c0 c evs -> proper_names m evs ->
  step es s (Some msg) script = (r, out, s') -> new_events s s' evs' -> shown evs' x ->
  get_ref x PAuthId = Some b -> exists a, In a (answers PAuthId evs) /\ seen_as es m a b.
Proof.
  intros Bc Bs Po (n & i & cb & sc & st & H & Z & E) N P K N' S G.
  pose proof (begun_server _ _ _ _ Bs (chat_impl _ _ _ _ _ _ _ _ _ _ H)) as Q.
  assert (D : m = DGssapi \/ m <> DGssapi) by (destruct m; auto; right; discriminate).
  assert (C : coming (named evs) (Some msg) (s_mech s)).
  { destruct D as [->|NG].
    - destruct (s_mech s); try discriminate Q; try contradiction Q; [destruct Q; discriminate|split; [exact I|discriminate]].
    - destruct (chat_names _ _ _ _ _ _ _ _ _ _ _ Bc Bs NG Po H) as (ev & N0 & C).
      destruct (step_events _ _ _ _ _ _ _ E) as [evs1 N1].
      rewrite (new_events_split _ _ _ _ _ _ N0 N1 N) in *. destruct (proper_part _ _ _ P) as [P0 P1].
      refine (client_says _ m _ _ _ _ _ _ _ _ _ NG Po Z (talk_stage _ _ _ _ _ _ _ _ _ _ _ NG Bc Bs (chat_talk _ _ _ _ _ _ _ _ _ _ H))
        _ E N1 P1 _ _ _).
      + intros M. rewrite M in Q. exact Q.
      + intros y Y. apply named_part. auto.
      + apply (heard_mono (named ev)); [intros y Y; apply named_part; auto|]. apply C. exact P0. }
  destruct (server_shows _ _ _ _ _ _ _ _ _ _ _ (proj1 C) K N' S G) as (a & Aa & W). exists a. split; [exact Aa|].
  destruct (s_mech s); try contradiction Q; try (subst m; exact W). destruct Q as [p ->]. exact W.
Qed.

Lemma scram_first_shown e s a plus m f two z user cn t script st out s' :
  s_mech s = XScramS a (Some (SsClientFirst plus)) -> client_first_fields m f two z user cn t ->
  step e s (Some m) script = (Ok st, out, s') ->
  exists evs c, new_events s s' evs /\ In (EvRequest PScramStoredPassword c) evs /\ get_ref c PAuthId = Some user.
Proof.
  intros Em Hf H. destruct (scram_server_identity _ _ _ _ _ _ _ _ _ _ _ _ _ _ _ Em Hf H) as (evs & N & C).
  destruct (follows_plans _ _ _ _ _ _ _ _ H N) as [_ P]. specialize (P st eq_refl). rewrite Em in P.
  pose proof (only_documented _ _ _ _ _ _ _ _ H N) as D. rewrite Forall_forall in D.
  assert (I : In PScramStoredPassword (asked evs)).
  { cbn [plans In] in P. destruct P as [<-|[<-|[]]]; cbn; tauto. }
  apply asked_in in I. destruct I as [[c I]|[v [c I]]].
  - exists evs, c. split; [exact N|]. split; [exact I|]. apply (C c). left. eexists. exact I.
  - apply D in I. destruct I as [l [I _]]. rewrite Em in I. inversion I.
Qed.

(** One name at PLAIN and another one at SCRAM are shown alike. *)
Theorem names_confused es ec1 cp i1 sc1 st1 m1 cp1 ev1 sp sc1' r1 out1 sp1 b
    ec2 cs g plus splus i2 sc2 st2 m2 cs1 ev2 ss sc2' r2 out2 ss1 a :
  s_mech cp = XPlainC -> step ec1 cp i1 sc1 = (Ok st1, m1, cp1) -> new_events cp cp1 ev1 ->
  answers PAuthId ev1 = [b] -> prepared es b b ->
  s_mech sp = XPlainS -> step es sp (Some m1) sc1' = (Ok r1, out1, sp1) ->
  s_mech cs = XScramC g (Some (ScInitial plus)) -> polite ec2 -> no_zero sc2 ->
  step ec2 cs i2 sc2 = (Ok st2, m2, cs1) -> new_events cs cs1 ev2 -> text_answers ev2 ->
  answers PAuthId ev2 = [a] -> escape a = Ok b ->
  s_mech ss = XScramS g (Some (SsClientFirst splus)) -> step es ss (Some m2) sc2' = (Ok r2, out2, ss1) ->
  exists evp evs c c', new_events sp sp1 evp /\ shown evp c /\ new_events ss ss1 evs /\ shown evs c' /\
    get_ref c PAuthId = Some b /\ get_ref c' PAuthId = Some b.
Proof.
  intros M1 H1 N1 A1 Pb S1 K1 M2 Po Z H2 N2 T A2 E S2 K2.
  destruct (plain_client_any _ _ _ _ _ _ _ M1 H1) as (ev & z & b' & p & N & _ & -> & _ & _ & Fz & Fb & Fp & Ab & _).
  assert (ev = ev1) as -> by (unfold new_events in N, N1; rewrite N1 in N; apply app_inv_head in N; auto).
  rewrite A1 in Ab. injection Ab as <-.
  destruct (plain_server_exact _ _ _ _ _ _ _ S1 K1) as [_ [(z' & b' & p' & c & Ac & Np & O & _)|[_ [_ [x K]]]]];
    [|discriminate K].
  destruct Ac as (b0 & p0 & Em & _ & F1 & F2 & F3 & _ & _ & Pa & _).
  apply plain_message_inj in Em; [|assumption..]. destruct Em as (_ & <- & _).
  destruct O as (_ & Ob & _). destruct Pb as [Pb _], Pa as [Pa _]. rewrite Pb in Pa. injection Pa as <-.
  destruct (client_first_parses _ _ _ _ _ _ _ _ _ _ M2 Po Z H2 N2 T)
    as [f [zz [zesc [user [uesc [Ha [Eu [_ [_ [_ [_ Ff]]]]]]]]]]].
  rewrite A2 in Ha. injection Ha as <-. rewrite E in Eu. injection Eu as <-.
  destruct (scram_first_shown _ _ _ _ _ _ _ _ _ _ _ _ _ _ _ S2 Ff K2) as (evs & c' & Ns & I & G).
  exists [EvValidate c], evs, c, c'. split; [exact Np|]. split; [left; left; reflexivity|]. split; [exact Ns|].
  split; [right; left; eauto|]. auto.
Qed.

Lemma seen_same es m a b : seen_as es m a b -> prepared es a a -> free ","%char a -> free "="%char a -> b = a.
Proof.
  intros H [P _] F1 F2. destruct m; try exact H.
  - exact (escape_plain _ _ H F1 F2).
  - destruct H as [H _]. rewrite P in H. injection H as <-. reflexivity.
Qed.
