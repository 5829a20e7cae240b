(** Lemmas about XOAUTH2 and OAUTHBEARER. *)
From Coq Require Import Lia.
From Verif Require Import Bytes BytesFacts Utf8 Utf8Facts Types World CallbackSpec WorldFacts
  MonadFacts Frame Calm Simple OAuth Scram Gssapi Session Spec_Simple Spec_Callback Spec_OAuth
  Proof_Callback Proof_Simple.
Open Scope m_scope.

(** A required value written in one vectored write. *)
Lemma need_vec {L} e q c (bufs : pval q -> list bytes) (l : L) w u l' w' :
  no_zero (w_script w) ->
  need_with e q c (fun v => write_all_vectored (bufs v) ;;; ret tt) l w = (Ok u, l', w') ->
  l' = l /\ exists v cs1 cs2, only_closures cs1 /\ only_closures cs2 /\
    did ((EvRequest q c :: cs1 ++ [EvAnswer q v]) ++ cs2) (concat (bufs v)) 0 w w'.
Proof.
  intros Hz H. apply need_with_ok in H. destruct H as [v [cs1 [cs2 [w1 [H1 [H2 [H ->]]]]]]].
  inv_bind H. injection H as <- <- <-. apply write_all_vectored_ok in H0.
  destruct H0 as [-> [p [r [_ [_ [Hw Hp]]]]]]. split; [reflexivity|].
  exists v, cs1, cs2. split; [assumption|]. split; [assumption|].
  rewrite <- (Hp Hz). apply request_did. exact Hw.
Qed.

Lemma did_no_zero evs p n w w' : did evs p n w w' -> no_zero (w_script w) -> no_zero (w_script w').
Proof. intros [_ [_ [_ [_ S]]]]. apply no_zero_left. exact S. Qed.

Ltac did_answers := repeat first
  [ rewrite request_answers by assumption | rewrite answers_app ];
  rewrite ?answers_answer, ?answers_other by discriminate; cbn [app].

(** * XOAUTH2 client *)

Theorem xoauth2_client_message e s input script st msg s' :
  s_mech s = XXOAuth2C OcInitial -> no_zero script ->
  step e s input script = (Ok st, msg, s') ->
  exists evs user token, new_events s s' evs /\ st = Running /\
    msg = xoauth2_message user token /\
    answers PAuthId evs = [user] /\ answers POAuthBearerToken evs = [token].
Proof.
  intros Hm Hz H. apply run_ok in H. destruct H as [m' [w' [H [-> ->]]]]. rewrite Hm in H.
  unfold mech_step, bind at 1, getl in H. apply on_eq in H. destruct H as [l' [H _]].
  unfold xoauth2_client_step in H. inv_bind H. injection H0 as <- <- <-.
  inv_bind H. apply need_vec in H0; [|exact Hz].
  destruct H0 as [-> [user [cs1 [cs2 [Hc1 [Hc2 D1]]]]]].
  inv_bind H. apply need_vec in H0; [|eapply did_no_zero; [exact D1|exact Hz]].
  destruct H0 as [-> [token [cs3 [cs4 [Hc3 [Hc4 D2]]]]]].
  inv_bind H. injection H0 as _ <- <-. injection H as <- _ <-.
  pose proof (did_trans _ _ _ _ _ _ _ _ _ D1 D2) as D.
  destruct D as [T [O _]]. eexists. exists user, token.
  split; [exact T|]. split; [reflexivity|]. split.
  { rewrite O. unfold xoauth2_message, xo_auth, soh2, soh. cbn [w_out concat]. rewrite !app_nil_r.
    rewrite <- !app_assoc. reflexivity. }
  did_answers. split; reflexivity.
Qed.

(** * XOAUTH2 server *)

Lemma xoauth2_parse_message user token :
  free soh user -> utf8_valid user = true -> utf8_valid token = true ->
  xoauth2_parse (xoauth2_message user token) = Ok (user, token).
Proof.
  intros Hf Hu Ht. unfold xoauth2_parse, xoauth2_message.
  replace (split_at_byte soh _) with
    (Some (lit "user=" ++ user, xo_auth ++ token ++ soh2)).
  - rewrite strip_prefix_app, strip_prefix_app, strip_suffix_app.
    rewrite !from_utf8_valid by assumption. reflexivity.
  - symmetry. apply split_at_byte_some. split; [|split].
    + intros Hi. apply in_app_iff in Hi. destruct Hi as [Hi|Hi]; [|exact (Hf Hi)].
      simpl in Hi. repeat destruct Hi as [Hi|Hi]; try discriminate; assumption.
    + rewrite <- app_assoc. reflexivity.
    + exists (lit "auth=Bearer " ++ token ++ soh2). reflexivity.
Qed.

Lemma xoauth2_provider_offers user token :
  offers_xoauth2 (xoauth2_provider user token) user token.
Proof.
  unfold xoauth2_provider, mk_entry. split; [reflexivity|]. split; [reflexivity|].
  intros q H1 H2. cbn [get_ref]. rewrite !castp_neq by congruence. reflexivity.
Qed.

(** A request whose consumer observes nothing but its own writes. *)
Definition quiet {L A} (m : M L A) : Prop :=
  forall l w, w_trace (snd (m l w)) = w_trace w /\ w_val (snd (m l w)) = w_val w.

Lemma quiet_request {L G} e q c (f : pval q -> M L G) l w r l' w' :
  (forall v, quiet (f v)) -> need_with e q c f l w = (r, l', w') ->
  w_val w' = w_val w /\ exists rest,
    w_trace w' = w_trace w ++ EvRequest q c :: rest /\ validations rest = [].
Proof.
  intros Hf H. unfold need_with, bind in H.
  destruct (maybe_need_with e q c f l w) as [[r1 l1] w1] eqn:E.
  assert (w1 = w').
  { destruct r1 as [[g|]|x|]; injection H; auto. }
  subst w1. clear H. apply maybe_need_with_inv in E.
  destruct E as [cs r2 Hc Hr|v cs1 cs2 g r2 l2 w2 H1 H2 Ef Hr|v cs1 cs2 x r2 l2 w2 H1 H2 Ef Hr
                |v cs1 l2 w2 H1 Ef].
  - split; [reflexivity|]. exists cs. split; [reflexivity|]. apply validations_closures, Hc.
  - destruct (Hf v l (add_events (EvRequest q c :: cs1 ++ [EvAnswer q v]) w)) as [T V].
    rewrite Ef in T, V. simpl in T, V. split; [exact V|].
    exists (cs1 ++ [EvAnswer q v] ++ cs2). split.
    + simpl. rewrite T, <- !app_assoc. simpl. rewrite <- app_assoc. reflexivity.
    + rewrite !validations_app, (validations_closures _ H1), (validations_closures _ H2).
      reflexivity.
  - destruct (Hf v l (add_events (EvRequest q c :: cs1 ++ [EvAnswer q v]) w)) as [T V].
    rewrite Ef in T, V. simpl in T, V. split; [exact V|].
    exists (cs1 ++ [EvAnswer q v] ++ cs2). split.
    + simpl. rewrite T, <- !app_assoc. simpl. rewrite <- app_assoc. reflexivity.
    + rewrite !validations_app, (validations_closures _ H1), (validations_closures _ H2).
      reflexivity.
  - destruct (Hf v l (add_events (EvRequest q c :: cs1 ++ [EvAnswer q v]) w)) as [T V].
    rewrite Ef in T, V. simpl in T, V. split; [exact V|].
    exists (cs1 ++ [EvAnswer q v]). split.
    + rewrite T. reflexivity.
    + rewrite !validations_app, (validations_closures _ H1). reflexivity.
Qed.

Definition verdict_of {q V} (Q : pval q = option V) (v : pval q) : option V :=
  eq_rect _ (fun T => T) v _ Q.

(** What both OAuth servers do with a parsed message: ask for the verdict with context [c],
    write the error if there is one, validate. *)
Definition verdict {V : Type} (e : env) (q : prop) (Q : pval q = option V)
    (send : V -> M oauth_sst unit) (c : ctx) : M oauth_sst state :=
  state <- need_with e q c (fun v =>
    match verdict_of Q v with
    | Some error => send error ;;; setl OsErrored ;;; ret Running
    | None => ret (Finished false)
    end) ;;
  validate e c ;;;
  ret state.

Lemma verdict_consulted {V} e q Q (send : V -> M oauth_sst unit) c l w r l' w' :
  (forall x, quiet (send x)) -> verdict e q Q send c l w = (r, l', w') ->
  exists evs, w_trace w' = w_trace w ++ evs /\ consulted evs q (fun c' => c' = c).
Proof.
  intros Hs H. unfold verdict, bind at 1 in H.
  match type of H with context [need_with e q c ?f l w] => set (f0 := f) in * end.
  destruct (need_with e q c f0 l w) as [[r1 l1] w1] eqn:E.
  apply quiet_request in E.
  - destruct E as [_ [rest [T Hv]]]. destruct r1 as [st|x|].
    + unfold validate, bind in H. destruct (run_validate _ _ _) as [[x|] slot];
        injection H as <- <- <-; simpl; rewrite T, <- app_assoc; eexists; (split; [reflexivity|]);
        exists c, (rest ++ [EvValidate c]); (split; [reflexivity|]); (split; [reflexivity|]);
        intros c'; rewrite validations_app, Hv; simpl; intros [<-|[]]; reflexivity.
    + injection H as <- <- <-. rewrite T. eexists. split; [reflexivity|]. exists c, rest.
      split; [reflexivity|]. split; [reflexivity|]. rewrite Hv. intros ? [].
    + injection H as <- <- <-. rewrite T. eexists. split; [reflexivity|]. exists c, rest.
      split; [reflexivity|]. split; [reflexivity|]. rewrite Hv. intros ? [].
  - intros v l2 w2. unfold f0. destruct (verdict_of Q v) as [x|]; [|split; reflexivity].
    unfold bind, setl, ret. destruct (Hs x l2 w2) as [T Hv].
    destruct (send x l2 w2) as [[[]]]; simpl in *; split; assumption.
Qed.

(** A successful verdict. *)
Lemma verdict_ok {V} e q Q (send : V -> M oauth_sst unit) (text : V -> bytes) c l w st l' w' :
  (forall x l w u l' w', send x l w = (Ok u, l', w') -> wrote (text x) w w') ->
  verdict e q Q send c l w = (Ok st, l', w') ->
  exists v evs out, w_trace w' = w_trace w ++ evs /\ w_out w' = w_out w ++ out /\
    answers q evs = [v] /\ validations evs = [c] /\
    match verdict_of Q v with
    | None => st = Finished false /\ out = [] /\ l' = l
    | Some error => st = Running /\ out = text error /\ l' = OsErrored
    end.
Proof.
  intros Hs H. unfold verdict in H. inv_bind H. apply need_with_ok in H0.
  destruct H0 as [v [cs1 [cs2 [w1 [H1 [H2 [H0 ->]]]]]]].
  inv_bind H. injection H as <- <- <-. unfold validate in H3.
  assert (Hv : exists slot, l1 = l0 /\ w0 = mk_world (w_out w1) (w_script w1)
    ((w_trace w1 ++ cs2) ++ [EvValidate c]) (w_rng w1) slot).
  { destruct (run_validate _ _ _) as [[x|] slot]; [discriminate|].
    injection H3 as _ <- <-. exists slot. split; reflexivity. }
  destruct Hv as [slot [-> ->]]. clear H3.
  exists v. destruct (verdict_of Q v) as [x|].
  - inv_bind H0. inv_bind H0. injection H3 as _ <- <-. injection H0 as <- <- <-.
    apply Hs in H. destruct H as [Ho [Ht _]]. simpl in Ho, Ht.
    exists (((EvRequest q c :: cs1 ++ [EvAnswer q v]) ++ cs2) ++ [EvValidate c]), (text x).
    split; [simpl; rewrite Ht; rewrite <- !app_assoc; simpl; rewrite <- !app_assoc; reflexivity|].
    split; [exact Ho|].
    split; [rewrite answers_app, request_answers by assumption; rewrite answers_answer; reflexivity|].
    split; [rewrite validations_app, request_validations by assumption; reflexivity|].
    auto.
  - injection H0 as <- <- <-.
    exists (((EvRequest q c :: cs1 ++ [EvAnswer q v]) ++ cs2) ++ [EvValidate c]), [].
    split; [simpl; rewrite <- !app_assoc; simpl; rewrite <- !app_assoc; reflexivity|].
    split; [symmetry; apply app_nil_r|].
    split; [rewrite answers_app, request_answers by assumption; rewrite answers_answer; reflexivity|].
    split; [rewrite validations_app, request_validations by assumption; reflexivity|].
    auto.
Qed.

(** A provided verdict with a perfect writer and a willing validate callback. *)
Lemma verdict_full {V} e q Q (send : V -> M oauth_sst unit) (text : V -> bytes) c v l w :
  (forall x l w, w_script w = [] -> send x l w = (Ok tt, l, add_out (text x) w)) ->
  w_script w = [] -> provides e q v -> validates e ->
  exists w',
    match verdict_of Q v with
    | None => verdict e q Q send c l w = (Ok (Finished false), l, w') /\ w_out w' = w_out w
    | Some error => verdict e q Q send c l w = (Ok Running, OsErrored, w') /\
                    w_out w' = w_out w ++ text error
    end.
Proof.
  intros Hs Hw Hp Hv.
  pose (g := match verdict_of Q v with Some _ => Running | None => Finished false end).
  pose (l1 := match verdict_of Q v with Some _ => OsErrored | None => l end).
  pose (o := match verdict_of Q v with Some x => text x | None => [] end).
  assert (E : exists w', verdict e q Q send c l w = (Ok g, l1, w') /\ w_out w' = w_out w ++ o).
  { unfold verdict, bind at 1.
    match goal with |- context [need_with e q c ?f l w] => set (f0 := f) end.
    assert (Hf : forall cs, exists w1,
      f0 v l (add_events (EvRequest q c :: cs ++ [EvAnswer q v]) w) = (Ok g, l1, w1) /\
      w_out w1 = w_out w ++ o).
    { intros cs. unfold f0, g, l1, o. destruct (verdict_of Q v) as [x|].
      - unfold bind. rewrite Hs by exact Hw. eexists. split; reflexivity.
      - eexists. split; [reflexivity|]. simpl. rewrite app_nil_r. reflexivity. }
    destruct (need_with_provides e q v c f0 l w g l1 Hp) as [cs [w1 [Hc [E1 E2]]]].
    { intros cs _. destruct (Hf cs) as [w1 [E _]]. eauto. }
    rewrite E2. destruct (Hf cs) as [w2 [E3 O3]]. rewrite E3 in E1. injection E1 as ->.
    unfold bind, validate. specialize (Hv (w_trace w1) c (w_val w1)).
    destruct (run_validate _ _ _) as [[x|] slot]; [discriminate Hv|].
    eexists. split; [reflexivity|exact O3]. }
  destruct E as [w' [E O]]. exists w'. unfold g, l1, o in *.
  destruct (verdict_of Q v); split; auto. rewrite O. apply app_nil_r.
Qed.

Definition xo_send (x : bytes) : M oauth_sst unit := write_all x.

Lemma xoauth2_server_verdict e input w :
  xoauth2_server_step e (Some input) OsInitial w =
  match xoauth2_parse input with
  | Ok (u, t) => verdict e PXOAuth2Validate eq_refl xo_send (xoauth2_provider u t) OsInitial w
  | Err x => (Err (EMech x), OsInitial, w)
  | Panic => (Panic, OsInitial, w)
  end.
Proof.
  unfold xoauth2_server_step, bind at 1, getl. unfold bind at 1, of_res.
  destruct (xoauth2_parse input) as [[u t]|x|]; reflexivity.
Qed.

Lemma quiet_write_all {L} data : quiet (@write_all L data).
Proof.
  intros l w. destruct (write_all_spec data l w) as [p [q [w' [_ [[_ [T [_ [V _]]]] [[-> _]|[x ->]]]]]]];
    simpl; auto.
Qed.

Theorem xoauth2_server_sees e s user token script r out s' :
  s_mech s = XXOAuth2S OsInitial ->
  free (chr 1) user -> utf8_valid user = true -> utf8_valid token = true ->
  step e s (Some (xoauth2_message user token)) script = (r, out, s') ->
  exists evs, new_events s s' evs /\
    consulted evs PXOAuth2Validate (fun c => offers_xoauth2 c user token).
Proof.
  intros Hm Hf Hu Ht H. apply run_ok in H. destruct H as [m' [w' [H [-> ->]]]]. rewrite Hm in H.
  unfold mech_step, bind at 1, getl in H. apply on_eq in H. destruct H as [l' [H _]].
  rewrite xoauth2_server_verdict, xoauth2_parse_message in H by assumption.
  apply verdict_consulted in H; [|apply quiet_write_all].
  destruct H as [evs [T [c [rest [-> [-> Hc]]]]]]. eexists. split; [exact T|].
  eexists; eexists. split; [reflexivity|]. split; [apply xoauth2_provider_offers|exact Hc].
Qed.

Theorem xoauth2_roundtrip ec sc input script st msg sc' :
  s_mech sc = XXOAuth2C OcInitial -> no_zero script ->
  step ec sc input script = (Ok st, msg, sc') ->
  exists evs user token, new_events sc sc' evs /\
    answers PAuthId evs = [user] /\ answers POAuthBearerToken evs = [token] /\
    (utf8_valid user = true -> utf8_valid token = true -> free (chr 1) user ->
     forall es ss script2 r out ss',
       s_mech ss = XXOAuth2S OsInitial -> step es ss (Some msg) script2 = (r, out, ss') ->
       exists evs', new_events ss ss' evs' /\
         consulted evs' PXOAuth2Validate (fun c => offers_xoauth2 c user token)).
Proof.
  intros Hm Hz H. apply xoauth2_client_message in H; [|assumption..].
  destruct H as [evs [user [token [T [_ [-> [Hu Ht]]]]]]]. exists evs, user, token.
  split; [exact T|]. split; [exact Hu|]. split; [exact Ht|].
  intros Vu Vt Hf es ss script2 r out ss' Hs H.
  eapply xoauth2_server_sees; eauto.
Qed.

(** A user name containing the separator takes part of the token's place. *)
Theorem xoauth2_injection u x t :
  xoauth2_message (u ++ chr 1 :: lit "auth=Bearer " ++ x) t
  = xoauth2_message u (x ++ chr 1 :: lit "auth=Bearer " ++ t).
Proof.
  unfold xoauth2_message. rewrite <- !app_assoc. cbn [app]. rewrite <- !app_assoc. reflexivity.
Qed.

(** * XOAUTH2 error flow *)

Theorem xoauth2_server_ok e s msg script st out s' :
  s_mech s = XXOAuth2S OsInitial ->
  step e s (Some msg) script = (Ok st, out, s') ->
  exists c v evs, new_events s s' evs /\ answers PXOAuth2Validate evs = [v] /\
    validations evs = [c] /\
    match v with
    | None => st = Finished false /\ out = []
    | Some err => st = Running /\ out = err /\
        forall i script', step e s' i script' = (Ok (Finished false), [], s')
    end.
Proof.
  intros Hm H. apply run_ok in H. destruct H as [m' [w' [H [-> ->]]]]. rewrite Hm in H.
  unfold mech_step, bind at 1, getl in H. apply on_eq in H. destruct H as [l' [H ->]].
  rewrite xoauth2_server_verdict in H.
  destruct (xoauth2_parse msg) as [[u t]|x|]; try discriminate.
  apply (verdict_ok _ _ _ _ (fun x => x)) in H.
  2:{ intros x l w u' l1 w1 H1. apply write_all_ok in H1. apply H1. }
  destruct H as [v [evs [o [T [O [Ha [Hv Hr]]]]]]].
  exists (xoauth2_provider u t), v, evs. split; [exact T|]. split; [exact Ha|].
  split; [exact Hv|]. simpl in O, Hr. destruct v as [err|].
  - destruct Hr as [-> [-> ->]]. split; [reflexivity|]. split; [exact O|].
    intros i script'. reflexivity.
  - destruct Hr as [-> [-> _]]. split; [reflexivity|exact O].
Qed.

Theorem xoauth2_server_full e s user token v :
  s_mech s = XXOAuth2S OsInitial ->
  free (chr 1) user -> utf8_valid user = true -> utf8_valid token = true ->
  provides e PXOAuth2Validate v -> validates e ->
  exists s', step e s (Some (xoauth2_message user token)) [] =
    match v with
    | None => (Ok (Finished false), [], s')
    | Some err => (Ok Running, err, s')
    end.
Proof.
  intros Hm Hf Hu Ht Hp Hv. rewrite (step_eq _ _ _ _ _ Hm). unfold mech_step, bind at 1, getl, on.
  rewrite xoauth2_server_verdict, xoauth2_parse_message by assumption.
  destruct (verdict_full e PXOAuth2Validate eq_refl xo_send (fun x => x)
     (xoauth2_provider user token) v OsInitial
     (mk_world [] [] (s_trace s) (s_rng s) (s_val s))) as [w' E]; auto.
  { intros x l w Hw. apply write_all_full. exact Hw. }
  cbn [verdict_of eq_rect] in E. destruct v as [err|]; destruct E as [E O]; rewrite E, O; eexists; reflexivity.
Qed.

Theorem xoauth2_server_bad e s msg script r out s' :
  s_mech s = XXOAuth2S OsInitial ->
  (forall u t, free (chr 1) u -> msg <> xoauth2_message u t) ->
  step e s (Some msg) script = (r, out, s') ->
  s' = s /\ out = [] /\ r = Err (EMech MXOAuth2InvalidFormat).
Proof.
  intros Hm Hb H. apply run_ok in H. destruct H as [m' [w' [H [-> ->]]]]. rewrite Hm in H.
  unfold mech_step, bind at 1, getl in H. apply on_eq in H. destruct H as [l' [H ->]].
  rewrite xoauth2_server_verdict in H.
  replace (xoauth2_parse msg) with (@Err mecherr (bytes * bytes) MXOAuth2InvalidFormat) in H.
  { injection H as <- <- <-. split; [|auto]. rewrite <- Hm. destruct s; reflexivity. }
  symmetry. unfold xoauth2_parse. destruct (split_at_byte soh msg) as [[a b]|] eqn:Es; [|reflexivity].
  destruct (strip_prefix _ a) as [u|] eqn:E1; [|reflexivity].
  destruct (strip_prefix _ b) as [t'|] eqn:E2; [|reflexivity].
  destruct (strip_suffix _ t') as [t|] eqn:E3; [|reflexivity].
  exfalso. apply split_at_byte_some in Es. destruct Es as [Hn [-> _]].
  apply strip_prefix_iff in E1, E2. apply strip_suffix_iff in E3. subst.
  apply (Hb u t).
  - intros Hi. apply Hn. apply in_app_iff. right. exact Hi.
  - unfold xoauth2_message. rewrite <- !app_assoc. reflexivity.
Qed.

Lemma client_waiting_none e s i script :
  s_mech s = XXOAuth2C OcWaiting -> i = None \/ i = Some [] ->
  step e s i script
  = (Ok (Finished false), [], mk_session (XXOAuth2C OcDone) (s_trace s) (s_rng s) (s_val s)).
Proof. intros Hm H. rewrite (step_eq _ _ _ _ _ Hm). destruct H as [-> | ->]; reflexivity. Qed.

Theorem xoauth2_client_error e s x script r out s' :
  s_mech s = XXOAuth2C OcWaiting -> x <> [] -> step e s (Some x) script = (r, out, s') ->
  out = [] /\
  if utf8_valid x then
    exists cs r0, follows (e_cb e (s_trace s) (e_sd e) [] (RAction PXOAuth2Error)) cs r0 /\
      action_answers PXOAuth2Error x true cs /\
      new_events s s' (EvAction PXOAuth2Error x [] ::
                       if took PXOAuth2Error cs then [EvTaken PXOAuth2Error] else []) /\
      r = if returned_ok r0
          then if took PXOAuth2Error cs then Ok (Finished true)
               else Err (ECbNoCallback PXOAuth2Error)
          else match r0 with Some y => Err y | None => Ok (Finished true) end
  else new_events s s' [] /\ r = Err (EMech MXOAuth2NotUtf8).
Proof.
  intros Hm Hx H. apply run_ok in H. destruct H as [m' [w' [H [-> ->]]]]. rewrite Hm in H.
  unfold mech_step, bind at 1, getl in H. apply on_eq in H. destruct H as [l' [H ->]].
  unfold xoauth2_client_step, bind at 1, getl, bind at 1, setl in H.
  cbn [unwrap_or_empty] in H. destruct x as [|b x]; [congruence|].
  unfold from_utf8 in H. destruct (utf8_valid (b :: x)).
  - unfold bind in H.
    match type of H with context [action e PXOAuth2Error empty_provider ?y ?l ?w] =>
      destruct (action_exact e PXOAuth2Error empty_provider y l w) as [cs [r0 [Hf [Ha E]]]] end.
    rewrite E in H. clear E. simpl in Hf.
    destruct (returned_ok r0) eqn:Er; [destruct (took PXOAuth2Error cs) eqn:Et|
      destruct r0 as [y|]]; try discriminate Er; injection H as <- <- <-;
      (split; [reflexivity|]); exists cs; eexists; (split; [exact Hf|]); (split; [exact Ha|]);
      rewrite ?Er, ?Et; (split; [reflexivity|]); reflexivity.
  - injection H as <- <- <-. split; [reflexivity|]. split; [|reflexivity].
    unfold new_events. simpl. symmetry. apply app_nil_r.
Qed.

(** * OAUTHBEARER client *)

Lemma vec_results {L} bufs (l : L) w r l' w' :
  no_zero (w_script w) -> write_all_vectored bufs l w = (r, l', w') ->
  l' = l /\ (((exists n, r = Ok n) /\ did [] (concat bufs) 0 w w') \/ exists x, r = Err (EIo x)).
Proof.
  intros Hz H. destruct (write_all_vectored_spec bufs l w) as [p [q [w1 [Hc [Hw Hr]]]]].
  destruct Hr as [[E Hp]|[x E]]; rewrite E in H; injection H as <- <- <-;
    (split; [reflexivity|]).
  - left. split; [eauto|]. rewrite Hc, (Hp Hz), app_nil_r. apply did_wrote, Hw.
  - right. eauto.
Qed.

Lemma kv_results {L} kv : forall (l : L) w r l' w',
  no_zero (w_script w) -> ob_write_kv kv l w = (r, l', w') ->
  l' = l /\ ((r = Ok tt /\ did [] (concat (map kv_text kv)) 0 w w') \/ exists x, r = Err (EIo x)).
Proof.
  induction kv as [|[k v] kv IH]; intros l w r l' w' Hz H.
  - injection H as <- <- <-. split; [reflexivity|]. left. split; [reflexivity|]. apply did_refl.
  - cbn [ob_write_kv] in H. unfold bind in H.
    destruct (write_all_vectored _ l w) as [[r1 l1] w1] eqn:E. apply vec_results in E; [|exact Hz].
    destruct E as [-> [[[n ->] D]|[x ->]]].
    + apply IH in H; [|eapply did_no_zero; eassumption].
      destruct H as [-> [[-> D2]|Hx]]; (split; [reflexivity|]).
      * left. split; [reflexivity|]. pose proof (did_trans _ _ _ _ _ _ _ _ _ D D2) as D3.
        cbn [map concat kv_text fst snd] in D3 |- *.
        match goal with |- did _ ?x _ _ _ => match type of D3 with did _ ?y _ _ _ =>
          replace x with y; [exact D3|] end end.
        unfold soh, equals, kv_text. cbn [app fst snd]. rewrite app_nil_r, <- !app_assoc. reflexivity.
      * right. exact Hx.
    + injection H as <- <- <-. split; [reflexivity|]. right. eauto.
Qed.

(** An optional value whose consumer only writes, with an error-propagating callback. *)
Lemma maybe_polite_written {L G} e q (f : pval q -> M L G) (text : pval q -> bytes) l w o l' w' :
  bubbling (e_cb e (w_trace w) (e_sd e) empty_provider (RSatisfy q)) ->
  no_zero (w_script w) ->
  (forall v w r l1 w1, no_zero (w_script w) -> f v l w = (r, l1, w1) ->
     l1 = l /\ (((exists g, r = Ok g) /\ did [] (text v) 0 w w1) \/ exists x, r = Err (EIo x))) ->
  maybe_need_with e q empty_provider f l w = (Ok o, l', w') ->
  l' = l /\ exists v evs,
    did evs (match v with Some x => text x | None => [] end) 0 w w' /\
    answered evs v /\ (forall q', q' <> q -> answers q' evs = []).
Proof.
  intros Hb Hz Hf H. apply (maybe_need_with_polite _ _ _ _ _ _ _ _ _ Hb) in H.
  destruct H as [[-> [-> [cs [Hc ->]]]]|[v [cs [r [Hc [Ha [H Hr]]]]]]].
  - split; [reflexivity|]. exists None, (EvRequest q empty_provider :: cs).
    split; [apply did_events|]. split; [|intros q' _].
    + exact (answers_closures q _ Hc).
    + exact (answers_closures q' _ Hc).
  - apply Hf in H; [|exact Hz]. destruct H as [-> [[_ D]|[x ->]]]; [|discriminate Hr].
    split; [reflexivity|].
    pose proof (did_trans _ _ _ _ _ _ _ _ _ (did_events _ w) D) as D2.
    exists (Some v). eexists. split; [exact D2|]. rewrite app_nil_r.
    replace (EvRequest q empty_provider :: cs ++ [EvAnswer q v]) with
      ((EvRequest q empty_provider :: cs ++ [EvAnswer q v]) ++ []) by apply app_nil_r.
    assert (only_closures []) by constructor.
    split.
    + unfold answered. rewrite request_answers by assumption. apply answers_answer.
    + intros q' Hq. rewrite request_answers by assumption. apply answers_other. congruence.
Qed.

Lemma a_results {L} z (l : L) w r l' w' :
  (write_all (lit "a=") ;;; write_all z) l w = (r, l', w') ->
  l' = l /\ (((exists g, r = Ok g) /\ did [] (lit "a=" ++ z) 0 w w') \/ exists x, r = Err (EIo x)).
Proof.
  intros H. unfold bind in H. destruct (write_all (lit "a=") l w) as [[r1 l1] w1] eqn:E.
  apply write_all_results in E. destruct E as [-> [[-> Hw]|[x [p [q [-> [Hv Hw]]]]]]].
  - apply write_all_results in H. destruct H as [-> [[-> Hw2]|[x [p [q [-> _]]]]]];
      (split; [reflexivity|]); [left|right; eauto].
    split; [eauto|]. apply (did_trans [] [] _ _ 0 0 _ w1 _); apply did_wrote; assumption.
  - injection H as <- <- <-. split; [reflexivity|]. right. eauto.
Qed.

Theorem oauthbearer_client_message e s input script st msg s' :
  s_mech s = XOAuthBearerC OcInitial -> polite e -> no_zero script ->
  step e s input script = (Ok st, msg, s') ->
  exists evs z kv token, new_events s s' evs /\ st = Running /\
    msg = oauthbearer_message z (match kv with Some l => l | None => [] end) token /\
    @answered PAuthzId evs z /\ @answered POAuthBearerKV evs kv /\
    answers POAuthBearerToken evs = [token].
Proof.
  intros Hm Hpol Hz H. apply run_ok in H. destruct H as [m' [w' [H [-> ->]]]]. rewrite Hm in H.
  unfold mech_step, bind at 1, getl in H. apply on_eq in H. destruct H as [l' [H _]].
  unfold oauthbearer_client_step in H. inv_bind H. injection H0 as <- <- <-.
  inv_bind H. apply write_all_ok in H0. destruct H0 as [-> W1]. apply did_wrote in W1.
  pose proof (did_no_zero _ _ _ _ _ W1 Hz) as Hz1.
  inv_bind H. apply (maybe_polite_written _ PAuthzId _ (fun z : bytes => lit "a=" ++ z)) in H0;
    [|apply Hpol|exact Hz1|intros; apply a_results; assumption].
  destruct H0 as [-> [z [ev1 [D1 [Az1 An1]]]]].
  pose proof (did_no_zero _ _ _ _ _ D1 Hz1) as Hz2.
  inv_bind H. apply write_all_ok in H0. destruct H0 as [-> W2]. apply did_wrote in W2.
  pose proof (did_no_zero _ _ _ _ _ W2 Hz2) as Hz3.
  inv_bind H. apply (maybe_polite_written _ POAuthBearerKV _
      (fun kv : list (bytes * bytes) => concat (map kv_text kv))) in H0; [|apply Hpol|exact Hz3|].
  2:{ intros v w3 r l1 w4 Hz4 H4. apply kv_results in H4; [|exact Hz4].
      destruct H4 as [-> [[-> D]|Hx]]; (split; [reflexivity|]); [left|right]; eauto. }
  destruct H0 as [-> [kv [ev2 [D2 [Az2 An2]]]]].
  pose proof (did_no_zero _ _ _ _ _ D2 Hz3) as Hz4.
  inv_bind H. apply need_vec in H0; [|exact Hz4].
  destruct H0 as [-> [token [cs1 [cs2 [Hc1 [Hc2 D3]]]]]].
  inv_bind H. injection H0 as _ <- <-. injection H as <- _ <-.
  pose proof (did_trans _ _ _ _ _ _ _ _ _ W1 D1) as D.
  pose proof (did_trans _ _ _ _ _ _ _ _ _ D W2) as E1.
  pose proof (did_trans _ _ _ _ _ _ _ _ _ E1 D2) as E2.
  pose proof (did_trans _ _ _ _ _ _ _ _ _ E2 D3) as E3.
  assert (HR : forall q', answers q' ((EvRequest POAuthBearerToken empty_provider
     :: cs1 ++ [EvAnswer POAuthBearerToken token]) ++ cs2)
     = answers q' [EvAnswer POAuthBearerToken token]) by (intros; apply request_answers; assumption).
  set (R := (EvRequest POAuthBearerToken empty_provider
     :: cs1 ++ [EvAnswer POAuthBearerToken token]) ++ cs2) in *.
  destruct E3 as [T [O _]]. eexists. exists z, kv, token.
  split; [exact T|]. split; [reflexivity|]. split.
  { rewrite O. unfold oauthbearer_message, xo_auth, soh2, soh. cbn [w_out concat].
    rewrite !app_nil_r. rewrite <- !app_assoc. destruct z, kv; reflexivity. }
  unfold answered in *. rewrite !(answers_app _ _ R), !HR, !answers_app.
  rewrite Az1, Az2, !An1, !An2 by discriminate.
  rewrite answers_answer, !answers_other by discriminate.
  cbn [answers app]. rewrite !app_nil_r. auto.
Qed.

(** * OAUTHBEARER server *)

Lemma soh_sep : sep_is is_soh soh.
Proof. apply sep_is_beq. Qed.
Lemma comma_sep : sep_is is_comma comma.
Proof. apply sep_is_beq. Qed.
Lemma equals_sep : sep_is is_equals equals.
Proof. apply sep_is_beq. Qed.

Definition kv_part (kv : bytes * bytes) : bytes := fst kv ++ equals :: snd kv.

Lemma split_kv kv : Forall sendable_pair kv -> forall a rest, free soh a ->
  split is_soh (a ++ concat (map kv_text kv) ++ soh :: rest) =
  a :: map kv_part kv ++ split is_soh rest.
Proof.
  induction 1 as [|[k v] kv Hk Hkv IH]; intros a rest Ha.
  - exact (split_app_sep is_soh soh a rest soh_sep Ha).
  - cbn [map concat]. change (kv_text (k, v)) with (soh :: kv_part (k, v)).
    cbn [app]. rewrite split_app_sep with (c := soh); [|apply soh_sep|exact Ha].
    f_equal. rewrite <- app_assoc. apply IH.
    destruct Hk as [H1 [_ [_ [H4 _]]]]. intros Hi. apply in_app_iff in Hi.
    destruct Hi as [Hi|[Hi|Hi]]; [exact (H1 Hi)|discriminate Hi|exact (H4 Hi)].
Qed.

Lemma not_auth k v : free "="%char k -> k <> lit "auth" ->
  strip_prefix (lit "auth=") (k ++ equals :: v) = None.
Proof.
  intros Hf Hn. apply strip_prefix_none. intros r H. apply Hn.
  change (lit "auth=" ++ r) with (lit "auth" ++ equals :: r) in H.
  apply app_sep_inj in H; [apply H|exact Hf|].
  cbn. intuition discriminate.
Qed.

Lemma fields_sendable kv : Forall sendable_pair kv -> forall rest token acc,
  ob_fields (map kv_part kv ++ rest) token acc = ob_fields rest token (acc ++ kv).
Proof.
  induction 1 as [|[k v] kv Hk Hkv IH]; intros rest token acc.
  - rewrite app_nil_r. reflexivity.
  - destruct Hk as [_ [Hk2 [Hk3 [_ [Hk5 [Hk6 Hk7]]]]]]. cbn [fst snd] in *.
    cbn [map app ob_fields]. unfold kv_part at 1. cbn [fst snd].
    rewrite not_auth by assumption. unfold kv_part at 1. cbn [fst snd].
    rewrite split_app_sep with (c := equals); [|apply equals_sep|exact Hk2].
    rewrite split_nosep with (c := equals); [|apply equals_sep|exact Hk5].
    unfold utf8_or. rewrite !from_utf8_valid by assumption.
    rewrite IH, <- app_assoc. reflexivity.
Qed.

Lemma bearer_utf8 t : utf8_valid t = true -> utf8_valid (lit "Bearer " ++ t) = true.
Proof. intros H. rewrite utf8_app; [exact H|reflexivity]. Qed.

Lemma ob_parse_message z kv t :
  sendable_authzid z -> Forall sendable_pair kv -> free (chr 1) t -> utf8_valid t = true ->
  ob_parse (oauthbearer_message z kv t) = Ok (mk_obmsg z (lit "Bearer " ++ t) kv).
Proof.
  intros Hz Hkv Ht Hu. unfold ob_parse.
  pose (g := lit "n," ++ match z with Some z => lit "a=" ++ z | None => [] end ++ lit ",").
  replace (oauthbearer_message z kv t) with
    ((g ++ concat (map kv_text kv) ++ soh :: lit "auth=Bearer " ++ t) ++ soh2).
  2:{ unfold g, oauthbearer_message. rewrite <- !app_assoc. cbn [app]. rewrite <- !app_assoc.
      reflexivity. }
  rewrite strip_suffix_app. rewrite split_kv; [|exact Hkv|].
  2:{ unfold g, free. rewrite !in_app_iff. intros [H|[H|H]].
      - repeat destruct H as [H|H]; try discriminate H; exact H.
      - destruct z as [z|]; [|exact H]. destruct Hz as [_ [Hz _]].
        apply in_app_iff in H. destruct H as [H|H]; [|exact (Hz H)].
        repeat destruct H as [H|H]; try discriminate H; exact H.
      - repeat destruct H as [H|H]; try discriminate H; exact H. }
  rewrite (split_nosep is_soh soh); [|apply soh_sep|].
  2:{ rewrite in_app_iff. intros [H|H]; [|exact (Ht H)].
      repeat destruct H as [H|H]; try discriminate H; exact H. }
  rewrite fields_sendable by exact Hkv. cbn [app ob_fields].
  change (lit "auth=Bearer " ++ t) with (lit "auth=" ++ lit "Bearer " ++ t).
  rewrite strip_prefix_app. unfold utf8_or at 2. rewrite from_utf8_valid by (apply bearer_utf8; exact Hu).
  replace (split is_comma g) with [lit "n"; match z with Some z => lit "a=" ++ z | None => [] end; []].
  2:{ unfold g. symmetry. change (lit "n,") with (lit "n" ++ [comma]). rewrite <- app_assoc.
      cbn [app]. change (lit "n" ++ comma :: ?x) with (lit "n" ++ comma :: x).
      rewrite (split_app_sep is_comma comma (lit "n")); [|apply comma_sep|].
      2:{ cbn. intuition discriminate. }
      f_equal. change (lit ",") with (comma :: []).
      rewrite split_app_sep with (c := comma); [reflexivity|apply comma_sep|].
      destruct z as [z|]; [|intros []]. destruct Hz as [Hz _]. rewrite in_app_iff.
      intros [H|H]; [|exact (Hz H)]. repeat destruct H as [H|H]; try discriminate H; exact H. }
  cbn [bytes_eqb negb]. change (bytes_eqb (lit "n") (lit "n")) with true. cbn [negb].
  destruct z as [z|].
  - destruct Hz as [_ [_ Hz]]. cbn [app].
    change ("a"%char :: "="%char :: z) with (lit "a=" ++ z).
    change (lit "a=" ++ z) with ("a"%char :: "="%char :: z) at 1. cbn iota.
    rewrite strip_prefix_app. unfold utf8_or. rewrite from_utf8_valid by exact Hz. reflexivity.
  - reflexivity.
Qed.

Lemma oauthbearer_provider_offers z t kv :
  offers_oauthbearer (oauthbearer_provider (mk_obmsg z t kv)) z t kv.
Proof.
  unfold oauthbearer_provider, mk_entry, offers_oauthbearer. cbn [om_authzid om_token om_fields].
  destruct z as [z|]; (split; [reflexivity|]); (split; [reflexivity|]); (split; [reflexivity|]);
    intros q H1 H2 H3; cbn [get_ref app]; rewrite !castp_neq by congruence; reflexivity.
Qed.

Lemma oauthbearer_server_verdict e input w :
  oauthbearer_server_step e (Some input) OsInitial w =
  match ob_parse input with
  | Ok m => verdict e POAuthBearerValidate eq_refl (write_json e) (oauthbearer_provider m) OsInitial w
  | Err x => (Err (EMech (MOAuthBearerParse x)), OsInitial, w)
  | Panic => (Panic, OsInitial, w)
  end.
Proof.
  unfold oauthbearer_server_step, bind at 1, getl. unfold bind at 1, of_res.
  destruct (ob_parse input) as [m|x|]; reflexivity.
Qed.

Lemma quiet_write_json {L} e x : quiet (@write_json L e x).
Proof.
  intros l w. unfold write_json. destruct (quiet_write_all (e_json_to e x) l w) as [T V].
  destruct (write_all _ l w) as [[[]]]; simpl in *; auto.
Qed.

Theorem oauthbearer_server_sees e s z kv t script r out s' :
  s_mech s = XOAuthBearerS OsInitial ->
  sendable_authzid z -> Forall sendable_pair kv -> free (chr 1) t -> utf8_valid t = true ->
  step e s (Some (oauthbearer_message z kv t)) script = (r, out, s') ->
  exists evs, new_events s s' evs /\
    consulted evs POAuthBearerValidate (fun c => offers_oauthbearer c z (lit "Bearer " ++ t) kv).
Proof.
  intros Hm Hz Hkv Ht Hu H. apply run_ok in H. destruct H as [m' [w' [H [-> ->]]]]. rewrite Hm in H.
  unfold mech_step, bind at 1, getl in H. apply on_eq in H. destruct H as [l' [H _]].
  rewrite oauthbearer_server_verdict, ob_parse_message in H by assumption.
  apply verdict_consulted in H; [|intros; apply quiet_write_json].
  destruct H as [evs [T [c [rest [-> [-> Hc]]]]]]. eexists. split; [exact T|].
  eexists; eexists. split; [reflexivity|]. split; [apply oauthbearer_provider_offers|exact Hc].
Qed.

Theorem oauthbearer_roundtrip ec sc input script st msg sc' :
  s_mech sc = XOAuthBearerC OcInitial -> polite ec -> no_zero script ->
  step ec sc input script = (Ok st, msg, sc') ->
  exists evs z kv token, new_events sc sc' evs /\
    @answered PAuthzId evs z /\ @answered POAuthBearerKV evs kv /\
    answers POAuthBearerToken evs = [token] /\
    (sendable_authzid z -> Forall sendable_pair (match kv with Some l => l | None => [] end) ->
     free (chr 1) token -> utf8_valid token = true ->
     forall es ss script2 r out ss',
       s_mech ss = XOAuthBearerS OsInitial -> step es ss (Some msg) script2 = (r, out, ss') ->
       exists evs', new_events ss ss' evs' /\
         consulted evs' POAuthBearerValidate (fun c =>
           offers_oauthbearer c z (lit "Bearer " ++ token)
             (match kv with Some l => l | None => [] end))).
Proof.
  intros Hm Hp Hz H. apply oauthbearer_client_message in H; [|assumption..].
  destruct H as [evs [z [kv [token [T [_ [-> [H1 [H2 H3]]]]]]]]]. exists evs, z, kv, token.
  split; [exact T|]. split; [exact H1|]. split; [exact H2|]. split; [exact H3|].
  intros Hs1 Hs2 Hs3 Hs4 es ss script2 r out ss' Hs H.
  eapply oauthbearer_server_sees; eauto.
Qed.

(** * OAUTHBEARER error flow *)

Lemma write_json_ok {L} e x (l : L) w u l' w' :
  write_json e x l w = (Ok u, l', w') -> wrote (e_json_to e x) w w'.
Proof.
  unfold write_json. destruct (write_all _ l w) as [[[v|y|] l1] w1] eqn:E; intros H; try discriminate.
  injection H as <- <- <-. apply write_all_ok in E. apply E.
Qed.

Theorem oauthbearer_server_ok e s msg script st out s' :
  s_mech s = XOAuthBearerS OsInitial ->
  step e s (Some msg) script = (Ok st, out, s') ->
  exists c v evs, new_events s s' evs /\ answers POAuthBearerValidate evs = [v] /\
    validations evs = [c] /\
    match v with
    | None => st = Finished false /\ out = []
    | Some err => st = Running /\ out = e_json_to e err /\
        forall i script', step e s' i script' = (Ok (Finished false), [], s')
    end.
Proof.
  intros Hm H. apply run_ok in H. destruct H as [m' [w' [H [-> ->]]]]. rewrite Hm in H.
  unfold mech_step, bind at 1, getl in H. apply on_eq in H. destruct H as [l' [H ->]].
  rewrite oauthbearer_server_verdict in H.
  destruct (ob_parse msg) as [m|x|]; try discriminate.
  apply (verdict_ok _ _ _ _ (e_json_to e)) in H.
  2:{ intros x l w u' l1 w1 H1. eapply write_json_ok. exact H1. }
  destruct H as [v [evs [o [T [O [Ha [Hv Hr]]]]]]].
  exists (oauthbearer_provider m), v, evs. split; [exact T|]. split; [exact Ha|].
  split; [exact Hv|]. simpl in O, Hr. destruct v as [err|].
  - destruct Hr as [-> [-> ->]]. split; [reflexivity|]. split; [exact O|].
    intros i script'. reflexivity.
  - destruct Hr as [-> [-> _]]. split; [reflexivity|exact O].
Qed.

Theorem oauthbearer_server_full e s z kv t v :
  s_mech s = XOAuthBearerS OsInitial ->
  sendable_authzid z -> Forall sendable_pair kv -> free (chr 1) t -> utf8_valid t = true ->
  provides e POAuthBearerValidate v -> validates e ->
  exists s', step e s (Some (oauthbearer_message z kv t)) [] =
    match v with
    | None => (Ok (Finished false), [], s')
    | Some err => (Ok Running, e_json_to e err, s')
    end.
Proof.
  intros Hm Hz Hkv Ht Hu Hp Hv. rewrite (step_eq _ _ _ _ _ Hm). unfold mech_step, bind at 1, getl, on.
  rewrite oauthbearer_server_verdict, ob_parse_message by assumption.
  destruct (verdict_full e POAuthBearerValidate eq_refl (write_json e) (e_json_to e)
     (oauthbearer_provider (mk_obmsg z (lit "Bearer " ++ t) kv)) v OsInitial
     (mk_world [] [] (s_trace s) (s_rng s) (s_val s))) as [w' E]; auto.
  { intros x l w Hw. unfold write_json. rewrite write_all_full by exact Hw. reflexivity. }
  cbn [verdict_of eq_rect] in E.
  destruct v as [err|]; destruct E as [E O]; rewrite E, O; eexists; reflexivity.
Qed.

Lemma ob_client_waiting_none e s i script :
  s_mech s = XOAuthBearerC OcWaiting -> i = None \/ i = Some [] ->
  step e s i script
  = (Ok (Finished false), [], mk_session (XOAuthBearerC OcDone) (s_trace s) (s_rng s) (s_val s)).
Proof. intros Hm H. rewrite (step_eq _ _ _ _ _ Hm). destruct H as [-> | ->]; reflexivity. Qed.

Theorem oauthbearer_client_error e s x script r out s' :
  s_mech s = XOAuthBearerC OcWaiting -> x <> [] -> step e s (Some x) script = (r, out, s') ->
  out = [] /\
  match e_json_from e x with
  | Some err =>
    exists cs r0, follows (e_cb e (s_trace s) (e_sd e) [] (RAction POAuthBearerErrored)) cs r0 /\
      action_answers POAuthBearerErrored err true cs /\
      new_events s s' (EvAction POAuthBearerErrored err [] ::
         if took POAuthBearerErrored cs then [EvTaken POAuthBearerErrored] else []) /\
      r = if returned_ok r0
          then if took POAuthBearerErrored cs then Ok (Finished true)
               else Err (ECbNoCallback POAuthBearerErrored)
          else match r0 with Some y => Err y | None => Ok (Finished true) end
  | None => new_events s s' [] /\ r = Err (EMech MOAuthBearerSerde)
  end.
Proof.
  intros Hm Hx H. apply run_ok in H. destruct H as [m' [w' [H [-> ->]]]]. rewrite Hm in H.
  unfold mech_step, bind at 1, getl in H. apply on_eq in H. destruct H as [l' [H ->]].
  unfold oauthbearer_client_step, bind at 1, getl, bind at 1, setl in H.
  cbn [unwrap_or_empty] in H. destruct x as [|b x]; [congruence|].
  destruct (e_json_from e (b :: x)) as [err|].
  - unfold bind in H.
    match type of H with context [action e POAuthBearerErrored empty_provider ?y ?l ?w] =>
      destruct (action_exact e POAuthBearerErrored empty_provider y l w) as [cs [r0 [Hf [Ha E]]]] end.
    rewrite E in H. clear E. simpl in Hf.
    destruct (returned_ok r0) eqn:Er; [destruct (took POAuthBearerErrored cs) eqn:Et|
      destruct r0 as [y|]]; try discriminate Er; injection H as <- <- <-;
      (split; [reflexivity|]); exists cs; eexists; (split; [exact Hf|]); (split; [exact Ha|]);
      rewrite ?Er, ?Et; (split; [reflexivity|]); reflexivity.
  - injection H as <- <- <-. split; [reflexivity|]. split; [|reflexivity].
    unfold new_events. simpl. symmetry. apply app_nil_r.
Qed.
