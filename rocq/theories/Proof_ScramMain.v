(** Whole SCRAM exchanges. *)
From Coq Require Import Lia.
From Verif Require Import Bytes BytesFacts Utf8 Utf8Facts Types World CallbackSpec WorldFacts Base64
  Base64Facts Num NumFacts Simple OAuth ScramParser Scram Gssapi Session
  Spec_Simple Spec_OAuth Spec_ScramText Spec_Scram MonadFacts Frame Proof_Simple Proof_OAuth
  Proof_ScramText Proof_Scram Proof_ScramRun Spec_Wire Proof_Wire.
Open Scope m_scope.

(** * Contexts *)

Definition seen (P : ctx -> Prop) (w w' : world) : Prop :=
  exists evs, w_trace w' = w_trace w ++ evs /\
    forall c, (exists q, In (EvRequest q c) evs) \/ In (EvValidate c) evs -> P c.

Lemma seen_frame P : frame (seen P).
Proof.
  split.
  - intros w. exists []. rewrite app_nil_r. split; [reflexivity|]. intros c [[q []]|[]].
  - intros a b c [e1 [T1 H1]] [e2 [T2 H2]]. exists (e1 ++ e2).
    split; [rewrite T2, T1, app_assoc; reflexivity|]. intros x [[q H]|H];
      apply in_app_or in H; destruct H; eauto.
Qed.
Lemma seen_writes P : writes (seen P).
Proof.
  intros p w w' [_ [T _]]. exists []. rewrite app_nil_r. split; [exact T|]. intros c [[q []]|[]].
Qed.
Lemma seen_draws P : Frame.draws_ok (seen P).
Proof. intros w. exists []. rewrite app_nil_r. split; [reflexivity|]. intros c [[q []]|[]]. Qed.
Lemma seen_event (P : ctx -> Prop) ev :
  match ev with EvRequest _ c | EvValidate c => P c | _ => True end -> admits (seen P) ev.
Proof.
  intros H w. exists [ev]. split; [reflexivity|]. intros c [[q [E|[]]]|[E|[]]]; subst; exact H.
Qed.
Lemma seen_closures P cs w : only_closures cs -> seen P w (add_events cs w).
Proof.
  intros H. exists cs. split; [reflexivity|]. unfold only_closures in H. rewrite Forall_forall in H.
  intros c [[q Hi]|Hi]; apply H in Hi; cbn in Hi;
    first [contradiction | discriminate | destruct Hi; discriminate].
Qed.

Lemma seen_maybe {L G} (P : ctx -> Prop) e q c (f : pval q -> M L G) :
  P c -> (forall v, keeps (seen P) (f v)) -> keeps (seen P) (maybe_need_with e q c f).
Proof.
  intros Hc Hf l w. destruct (maybe_need_with e q c f l w) as [[r l'] w'] eqn:E.
  apply maybe_need_with_inv in E. pose proof (seen_frame P) as F.
  assert (H0 : forall cs, only_closures cs -> seen P w (add_events (EvRequest q c :: cs) w)).
  { intros cs Hcs. change (EvRequest q c :: cs) with ([EvRequest q c] ++ cs).
    rewrite <- add_events_app. eapply fr_trans; [exact F| |apply seen_closures; exact Hcs].
    apply seen_event. exact Hc. }
  assert (H1 : forall cs v, only_closures cs ->
     seen P w (add_events (EvRequest q c :: cs ++ [EvAnswer q v]) w)).
  { intros cs v Hcs. change (EvRequest q c :: cs ++ [EvAnswer q v])
      with ((EvRequest q c :: cs) ++ [EvAnswer q v]).
    rewrite <- add_events_app. eapply fr_trans; [exact F|apply H0; exact Hcs|].
    apply seen_event. exact I. }
  destruct E as [cs r Hcs _|v cs1 cs2 g r l1 w1 Hc1 Hc2 E _|v cs1 cs2 x r l1 w1 Hc1 Hc2 E _
                |v cs1 l1 w1 Hc1 E].
  - apply H0. exact Hcs.
  - specialize (Hf v l (add_events (EvRequest q c :: cs1 ++ [EvAnswer q v]) w)). rewrite E in Hf.
    eapply fr_trans; [exact F|apply H1; exact Hc1|].
    eapply fr_trans; [exact F|exact Hf|]. apply seen_closures. exact Hc2.
  - specialize (Hf v l (add_events (EvRequest q c :: cs1 ++ [EvAnswer q v]) w)). rewrite E in Hf.
    eapply fr_trans; [exact F|apply H1; exact Hc1|].
    eapply fr_trans; [exact F|exact Hf|]. apply seen_closures. exact Hc2.
  - specialize (Hf v l (add_events (EvRequest q c :: cs1 ++ [EvAnswer q v]) w)). rewrite E in Hf.
    eapply fr_trans; [exact F|apply H1; exact Hc1|exact Hf].
Qed.

Definition names (user : bytes) (z : option bytes) (c : ctx) : Prop :=
  get_ref c PAuthId = Some user /\ get_ref c PAuthzId = z.

Lemma seen_hcf e a plus m cf :
  client_first_parse m = Ok cf ->
  keeps (seen (names (cf_username cf) (cf_authzid cf))) (handle_client_first e a plus m).
Proof.
  intros Hp. rewrite handle_client_first_eq, Hp.
  set (P := names (cf_username cf) (cf_authzid cf)). pose proof (seen_frame P) as F.
  assert (Hprov : P (scram_server_provider (cf_username cf) (cf_authzid cf))).
  { pose proof (scram_provider_offers (cf_username cf) (cf_authzid cf)) as [H1 [H2 _]].
    split; assumption. }
  assert (Hbind : forall name, P (and_provider (this_provider PChannelBindingName name)
                     (scram_server_provider (cf_username cf) (cf_authzid cf)))).
  { intros name. split; reflexivity || (destruct (cf_authzid cf); reflexivity). }
  intros l w. unfold scram_parse. cbn [rmap_err].
  change (bind (of_res (Ok cf)) ?f l w) with (f cf l w). cbv beta.
  revert l w. apply (keeps_bind _ F); [apply (keeps_setl _ F)|]. intros _.
  cbv zeta. apply (keeps_bind _ F).
  { unfold hcf_bind. destruct (cf_cbflag cf) as [| |name].
    - destruct plus; [apply (keeps_fail _ F)|apply (keeps_ret _ F)].
    - apply (keeps_ret _ F).
    - unfold need_cb_data. apply (keeps_bind _ F).
      + unfold maybe_need_cb_data. apply (keeps_bind _ F).
        * apply keeps_log. apply seen_event. exact I.
        * intros _.
          assert (Hk : forall d : bytes, keeps (seen P) (h <- getl ;; setl (h ++ d))).
          { intros d. apply (keeps_bind _ F); [apply (keeps_getl _ F)|].
            intros h. apply (keeps_setl _ F). }
          destruct (e_chan e name).
          -- apply (keeps_bind _ F); [apply Hk|]. intros; apply (keeps_ret _ F).
          -- apply seen_maybe; [apply Hbind|exact Hk].
      + intros [g|]; [apply (keeps_ret _ F)|apply (keeps_fail _ F)]. }
  intros _. apply (keeps_bind _ F).
  { apply seen_maybe; [exact Hprov|]. intros sp. unfold stored_consumer.
    destruct (_ && _); [apply (keeps_ret _ F)|apply (keeps_fail _ F)]. }
  intros params. unfold hcf_send, generate_nonce. apply (keeps_bind _ F).
  { apply (keeps_bind _ F); [apply (keeps_draws _ F), seen_draws|].
    intros; apply (keeps_ret _ F). }
  intros sn. destruct params as [[[[it salt] k1] k2]|].
  - apply (keeps_bind _ F); [apply keeps_write_all_vectored, seen_writes|]. intros _.
    apply (keeps_bind _ F); [apply (keeps_getl _ F)|]. intros; apply (keeps_ret _ F).
  - apply (keeps_bind _ F).
    { unfold random_bytes. apply (keeps_bind _ F); [apply (keeps_draws _ F), seen_draws|].
      intros; apply (keeps_ret _ F). }
    intros salt. apply (keeps_bind _ F); [apply keeps_write_all_vectored, seen_writes|].
    intros; apply (keeps_ret _ F).
Qed.

(** Whatever happens, the server tells its application the names in the message. *)
Theorem server_first_contexts e s a plus m cf script r out s' :
  s_mech s = XScramS a (Some (SsClientFirst plus)) ->
  client_first_parse m = Ok cf ->
  step e s (Some m) script = (r, out, s') ->
  exists evs, new_events s s' evs /\ contexts_name evs (cf_username cf) (cf_authzid cf).
Proof.
  intros Em Hp H. apply (step_scram_server _ _ _ _ _ _ _ _ _ Em) in H.
  destruct H as [st1 [w' [H [-> ->]]]].
  pose proof (seen_hcf e a plus m cf Hp [] (mk_world [] script (s_trace s) (s_rng s) (s_val s))) as K.
  unfold scram_server_step in H. unfold bind at 1, getl in H. unfold bind at 1, setl in H.
  unfold bind, locally in H.
  destruct (handle_client_first e a plus m [] _) as [[[d|x|] l1] w1];
    injection H as <- <- <-; destruct K as [evs [T K]]; exists evs; split; auto.
Qed.
Lemma server_first_rejected e s a plus m script r out s' :
  s_mech s = XScramS a (Some (SsClientFirst plus)) ->
  (forall cf, client_first_parse m <> Ok cf) ->
  step e s (Some m) script = (r, out, s') ->
  new_events s s' [] /\ out = [] /\ s_val s' = s_val s /\ forall st, r <> Ok st.
Proof.
  intros Em Hp H. apply (step_scram_server _ _ _ _ _ _ _ _ _ Em) in H.
  destruct H as [st1 [w' [H [-> ->]]]].
  unfold scram_server_step in H. unfold bind at 1, getl in H. unfold bind at 1, setl in H.
  unfold bind, locally in H. rewrite handle_client_first_eq in H. unfold bind at 1 in H.
  unfold scram_parse, of_res in H.
  destruct (client_first_parse m) as [cf|x|]; [exfalso; eapply Hp; reflexivity| |];
    cbn [rmap_err] in H; injection H as <- <- <-; unfold new_events; cbn; rewrite app_nil_r;
    repeat split; discriminate.
Qed.

(** * Server soundness *)

Lemma error_not_v out : error_prefix out -> forall rest, out <> "v"%char :: rest.
Proof.
  intros [x [v [r [_ E]]]] rest ->. discriminate.
Qed.

Lemma no_vouch s s' out :
  new_events s s' [] -> (forall rest, out <> "v"%char :: rest) -> ~ vouches s s' out.
Proof.
  unfold new_events. intros E H [[evs [c [N Hi]]]|[rest Hr]]; [|exact (H _ Hr)].
  unfold new_events in N. rewrite E in N. apply app_inv_head in N. subst evs. destruct Hi.
Qed.

Theorem server_sound e s0 a plus m1 script1 st out1 s1 m2 script2 r out2 s2 :
  s_mech s0 = XScramS a (Some (SsClientFirst plus)) -> crypto_ok e -> no_zero script1 ->
  step e s0 (Some m1) script1 = (Ok st, out1, s1) ->
  step e s1 (Some m2) script2 = (r, out2, s2) ->
  vouches s1 s2 out2 ->
  exists evs f two z user cn t data sp,
    new_events s0 s1 evs /\ validations evs = [] /\
    client_first_fields m1 f two z user cn t /\
    (f = CbSupportedNotUsed -> plus = false) /\ flag_data e evs f data /\
    answers PScramStoredPassword evs = [sp] /\ contexts_name evs user z /\
    proven e a f z user cn (nonce_from e (s_rng s0)) out1 m2 data sp /\
    forall evs2, new_events s1 s2 evs2 ->
      (evs2 = [] /\ exists x, r = Err (EIo x)) \/
      exists c, evs2 = [EvValidate c] /\ offers_scram c user z.
Proof.
  intros Em Hc Hz H1 H2 Hv.
  destruct (server_first_any _ _ _ _ _ _ _ _ _ Em H1)
    as [evs [f [two [z [user [cn [t [data [-> [Hn [Hval [_ [Hf [Hy [Hd Hs]]]]]]]]]]]]]]].
  pose proof (fields_parse _ _ _ _ _ _ _ Hf) as Hp.
  destruct (server_first_contexts _ _ _ _ _ _ _ _ _ _ Em Hp H1) as [evs' [Hn' Hctx]].
  assert (evs' = evs) as ->.
  { unfold new_events in Hn, Hn'. rewrite Hn in Hn'. apply app_inv_head in Hn'. auto. }
  cbn [cf_username cf_authzid] in Hctx. cbv zeta in Hs.
  destruct Hs as [[sp [Ha [Hu [Hw [_ Ho]]]]]|[Hw _]].
  - exists evs, f, two, z, user, cn, t, data, sp. repeat (split; [assumption|]).
    destruct (server_second _ _ _ _ _ _ _ _ _ _ _ _ _ _ Hw Hc H2) as [H|[_ [He [_ [Hpre _]]]]].
    + destruct H as [cb [p64 [exts [rest [Hauth [Hvt Hr]]]]]].
      split.
      * destruct Hauth as [Em2 [F1 [F2 [F3 [F4 [Hdec [P [HP Hprf]]]]]]]].
        exists cb, exts, p64, P. rewrite (Ho Hz). repeat (split; [auto|]). exact Hprf.
      * intros evs2 Hn2. unfold new_events in *. destruct Hr as [[x [Hx [He _]]]|[c [He [Hoff _]]]];
          rewrite Hn2 in He; apply app_inv_head in He; subst evs2; eauto.
    + exfalso. revert Hv. apply no_vouch; [exact He|apply error_not_v; exact Hpre].
  - exfalso. revert Hv.
    destruct (server_second_unknown _ _ _ _ _ _ _ _ Hw H2) as [He [_ [[rest Hpre] _]]].
    apply no_vouch; [exact He|]. intros x ->. discriminate.
Qed.

(** Without matching channel binding data nothing is validated. *)
Theorem binding_mismatch e s0 a plus m1 script1 st out1 s1 m2 script2 r out2 s2
    name two z user cn t data cb fn rest cdata :
  s_mech s0 = XScramS a (Some (SsClientFirst plus)) -> crypto_ok e -> no_zero script1 ->
  step e s0 (Some m1) script1 = (Ok st, out1, s1) ->
  step e s1 (Some m2) script2 = (r, out2, s2) ->
  client_first_fields m1 (CbUsed name) two z user cn t ->
  e_chan e name = Some data ->
  m2 = final_bare cb fn ++ rest -> free ","%char cb ->
  decode cb = Some (gs2_text (CbUsed name) z ++ cdata) -> cdata <> data ->
  ~ vouches s1 s2 out2.
Proof.
  intros Em Hc Hz H1 H2 Hf He Hm2 Hcb Hdec Hne Hv.
  destruct (server_sound _ _ _ _ _ _ _ _ _ _ _ _ _ _ Em Hc Hz H1 H2 Hv)
    as [evs [f [two' [z' [user' [cn' [t' [data' [sp [_ [_ [Hf' [_ [Hd [_ [_ [Hp _]]]]]]]]]]]]]]]]].
  pose proof (fields_parse _ _ _ _ _ _ _ Hf) as P1.
  pose proof (fields_parse _ _ _ _ _ _ _ Hf') as P2.
  rewrite P1 in P2. injection P2 as <- <- <- <-.
  destruct Hp as [cb' [exts [p64 [P [_ [Hm2' [Hcb' [_ [_ [Hdec' _]]]]]]]]]].
  assert (cb' = cb) as ->.
  { rewrite Hm2 in Hm2'. unfold final_bare in Hm2'. rewrite <- !app_assoc in Hm2'.
    apply app_inv_head in Hm2'.
    change (lit ",r=") with (","%char :: lit "r=") in Hm2'. cbn [app] in Hm2'.
    clear - Hm2' Hcb Hcb'. revert cb' Hcb' Hm2'. unfold free in *.
    induction cb as [|x cb IH]; intros [|y cb'] Hcb' E; cbn in E; try congruence.
    - injection E as <- _. exfalso; apply Hcb'; left; reflexivity.
    - injection E as -> _. exfalso; apply Hcb; left; reflexivity.
    - injection E as -> E. f_equal. apply IH; [intros Hi; apply Hcb; right; exact Hi| |exact E].
      intros Hi; apply Hcb'; right; exact Hi. }
  rewrite Hdec in Hdec'. injection Hdec' as Hdec'. apply app_inv_head in Hdec'. subst data'.
  destruct Hd as [E|[E _]]; rewrite He in E; [injection E as E; congruence|discriminate].
Qed.

(** * Downgrade *)

Theorem downgrade_refused e s a m two z user cn t script r out s' :
  s_mech s = XScramS a (Some (SsClientFirst true)) ->
  client_first_fields m CbSupportedNotUsed two z user cn t ->
  step e s (Some m) script = (r, out, s') ->
  r = Err (EMech MScramChannelBindingsNotUsed) /\ out = [] /\ new_events s s' [] /\
  s_val s' = s_val s.
Proof.
  intros Em Hf H. pose proof (fields_parse _ _ _ _ _ _ _ Hf) as Hp.
  apply (step_scram_server _ _ _ _ _ _ _ _ _ Em) in H.
  destruct H as [st1 [w' [H [-> ->]]]].
  unfold scram_server_step in H. unfold bind at 1, getl in H. unfold bind at 1, setl in H.
  unfold bind, locally in H. rewrite handle_client_first_eq, Hp in H.
  injection H as <- <- <-. unfold new_events; cbn; rewrite app_nil_r. auto.
Qed.

(** * Completeness *)

Lemma final_authenticates ec es a cn sn header user p sp :
  crypto_ok es -> same_crypto ec es -> stored_for es a p sp ->
  free ","%char cn -> free ","%char sn ->
  let cb := encode header in
  let am := exchange_message user cn sn (encode (st_salt sp)) (fmt_u32 (st_iterations sp)) cb in
  let ck := client_key_of ec a (e_pbkdf2 ec a p (st_salt sp) (st_iterations sp)) in
  authenticates es a cn sn header user sp
    (final_bare cb (cn ++ sn) ++ lit ",p=" ++ encode (client_proof ec a ck am)) cb
    (encode (client_proof ec a ck am)) [].
Proof.
  intros Hc [Sh [Sm Sp]] [Hk _] Fc Fs cb am ck.
  assert (Eck : ck = client_key_of es a (e_pbkdf2 es a p (st_salt sp) (st_iterations sp)))
    by (unfold ck, client_key_of; rewrite Sp, Sm; reflexivity).
  assert (Hl : length ck = hlen a) by (rewrite Eck; apply Hc).
  assert (Ep : client_proof ec a ck am = xor_zip ck (e_hmac es a (st_stored_key sp) am)).
  { unfold client_proof. rewrite <- xor_zip_text, Sm, Sh. cbv zeta in Hk. rewrite Hk, Eck. reflexivity. }
  assert (Hlp : length (client_proof ec a ck am) = hlen a).
  { rewrite Ep, xor_zip_length, Hl. destruct Hc as [_ [Hh _]]. rewrite Hh. apply Nat.min_id. }
  split; [reflexivity|]. split; [apply encode_no; reflexivity|].
  split; [intros H; apply in_app_or in H; destruct H; [apply Fc|apply Fs]; assumption|].
  split; [apply encode_no; reflexivity|]. split; [constructor|].
  split; [apply decode_encode|]. exists (client_proof ec a ck am).
  split.
  - exists (client_proof ec a ck am). rewrite decode_encode, Hlp, Nat.sub_diag.
    cbn [repeat]. rewrite app_nil_r. split; [reflexivity|]. split; [lia|reflexivity].
  - unfold proves. fold am. rewrite <- xor_zip_text, Ep, xor_zip_cancel.
    + cbv zeta in Hk. congruence.
    + rewrite Hl. destruct Hc as [_ [Hh _]]. rewrite Hh. reflexivity.
Qed.

Lemma nonce_from_free e n : free ","%char (nonce_from e n).
Proof. apply nonce_no_comma, nonce_from_legal. Qed.
Lemma nonce_from_nonempty e n : nonce_from e n <> [].
Proof.
  intros E. pose proof (proj2 (nonce_from_legal e n)) as H. rewrite E in H. discriminate.
Qed.
Lemma free_app c x y : free c x -> free c y -> free c (x ++ y).
Proof. intros H1 H2 H. apply in_app_or in H. destruct H; [apply H1|apply H2]; assumption. Qed.
Lemma fmt_free n : free ","%char (fmt_u32 n).
Proof.
  intros H. pose proof (fmt_u32_chars n) as Hc. rewrite forallb_forall in Hc. apply Hc in H.
  discriminate.
Qed.

(** A server-first message of this implementation is what a client waits for. *)
Lemma first_continues cn e k sp :
  free ","%char cn -> (1 <= st_iterations sp <= u32_max)%N ->
  continues (server_first_text (cn ++ nonce_from e k) (encode (st_salt sp))
    (fmt_u32 (st_iterations sp))) cn (nonce_from e k) (encode (st_salt sp)) (st_salt sp)
    (fmt_u32 (st_iterations sp)) (st_iterations sp).
Proof.
  intros Hf Hi. split; [reflexivity|]. split; [apply nonce_from_nonempty|].
  split; [apply decode_encode|]. split; [apply parse_fmt_u32; lia|]. split; [lia|].
  split; [apply free_app; [exact Hf|apply nonce_from_free]|].
  split; [apply encode_no; reflexivity|apply fmt_free].
Qed.
Lemma default_continues cn e k salt :
  free ","%char cn ->
  continues (server_first_text (cn ++ nonce_from e k) (encode salt) (lit "16384")) cn
    (nonce_from e k) (encode salt) salt (lit "16384") 16384.
Proof.
  intros Hf. split; [reflexivity|]. split; [apply nonce_from_nonempty|].
  split; [apply decode_encode|]. split; [reflexivity|]. split; [discriminate|].
  split; [apply free_app; [exact Hf|apply nonce_from_free]|].
  split; [apply encode_no; reflexivity|]. intros H. cbn in H. intuition discriminate.
Qed.

Lemma sent_fields f user uesc z zesc nonce :
  escape user = Ok uesc -> utf8_valid user = true ->
  escaped z zesc -> (forall x, z = Some x -> utf8_valid x = true) ->
  legal_flag f -> legal_nonce nonce ->
  client_first_fields (gs2_text f zesc ++ first_bare uesc nonce) f (lit "a=") zesc uesc nonce [].
Proof.
  intros Hu Vu Hz Vz Hf Hn. unfold client_first_fields.
  split; [unfold gs2_text; rewrite app_nil_r, <- !app_assoc; reflexivity|].
  split; [reflexivity|]. split; [exact Hf|]. split; [exact Hn|].
  split; [left; reflexivity|].
  split; [destruct z as [z|], zesc as [y|]; cbn in Hz; try contradiction;
    [apply escape_no_comma in Hz; intros [E|[E|H]]; [discriminate|discriminate|exact (Hz H)]|intros []]|].
  split; [exact (escape_no_comma _ _ Hu)|].
  split; [exact (escape_utf8 _ _ Hu Vu)|].
  destruct z as [z|], zesc as [y|]; cbn in Hz; try contradiction; [|exact I].
  exact (escape_utf8 _ _ Hz (Vz z eq_refl)).
Qed.

Theorem scram_complete ec es sc ss a plus splus input f data user uesc z zesc p sp :
  s_mech sc = XScramC a (Some (ScInitial plus)) ->
  s_mech ss = XScramS a (Some (SsClientFirst splus)) ->
  crypto_ok es -> same_crypto ec es ->
  client_can_bind ec plus f data -> server_can_bind es f data ->
  legal_flag f -> (f = CbSupportedNotUsed -> splus = false) ->
  provides ec PAuthId user -> escape user = Ok uesc -> utf8_valid user = true ->
  answers_with ec PAuthzId z -> escaped z zesc -> (forall x, z = Some x -> utf8_valid x = true) ->
  looks_up es uesc zesc (Some sp) -> stored_for es a p sp ->
  (1 <= st_iterations sp <= u32_max)%N ->
  gives_keys ec a p (st_salt sp) (st_iterations sp) ->
  validates_user es uesc zesc ->
  exists m1 m2 m3 m4 sc1 sc2 sc3 ss1 ss2,
    step ec sc input [] = (Ok Running, m1, sc1) /\
    step es ss (Some m1) [] = (Ok Running, m2, ss1) /\
    step ec sc1 (Some m2) [] = (Ok Running, m3, sc2) /\
    step es ss1 (Some m3) [] = (Ok (Finished true), m4, ss2) /\
    step ec sc2 (Some m4) [] = (Ok (Finished false), [], sc3) /\
    exists evs c, new_events ss ss2 evs /\ validations evs = [c] /\ offers_scram c uesc zesc.
Proof.
  intros Emc Ems Hc Hs Hcb Hsb Hlf Hy Hu Eu Vu Hz Ez Vz Hsp Hst Hit Hk Hval.
  set (cn := nonce_from ec (s_rng sc)). set (sn := nonce_from es (s_rng ss)).
  destruct (client_first_run ec sc a plus input f data user uesc z zesc Emc Hcb Hu Eu Hz Ez)
    as [sc1 [E1 [W1 _]]]. fold cn in E1, W1.
  pose proof (sent_fields f user uesc z zesc cn Eu Vu Ez Vz Hlf (proj1 (nonce_from_legal _ _)))
    as Hfields.
  assert (Hus : usable a sp).
  { destruct Hst as [K1 K2]. unfold usable. rewrite K1, K2. split; [apply Hc|].
    unfold server_key_of. apply Hc. }
  destruct (server_first_run es ss a splus _ f _ zesc uesc cn [] data (Some sp) Ems Hfields Hy Hsb Hsp)
    as [m2 [ss1 [E2 [_ [Em2 W2]]]]]; [intros x [= <-]; exact Hus|].
  fold sn in Em2, W2.
  assert (Hcc : crypto_ok ec).
  { destruct Hs as [Sh [Sm Sp]], Hc as [Hh [Hm Hp]].
    split; [intros; rewrite Sh; apply Hh|]. split; intros; [rewrite Sm; apply Hm|rewrite Sp; apply Hp]. }
  assert (Hcont : continues m2 cn sn (encode (st_salt sp)) (st_salt sp) (fmt_u32 (st_iterations sp))
                    (st_iterations sp)).
  { rewrite Em2. apply first_continues; [apply nonce_from_free|exact Hit]. }
  destruct (client_second_run ec sc1 a _ cn uesc m2 sn _ _ _ _ p W1 Hcont Hcc Hk)
    as [sc2 [E3 [W3 _]]].
  pose proof (final_authenticates ec es a cn sn (gs2_text f zesc ++ data) uesc p sp Hc Hs Hst
    (nonce_from_free _ _) (nonce_from_free _ _)) as Hauth. cbv zeta in Hauth, E3, W3.
  destruct (server_second_run es ss1 a cn sn _ uesc zesc sp _ _ _ _ W2 Hc Hval Hauth)
    as [ss2 [E4 [_ [c [N4 O4]]]]].
  match type of E4 with _ = (_, ?v, _) => set (m4 := v) in * end.
  destruct (step ec sc2 (Some m4) []) as [[r5 o5] sc3] eqn:E5.
  destruct (client_third _ _ _ _ _ _ _ _ _ _ _ _ _ W3 E5) as [Ho5 [_ [[_ [Hr5 _]]|[Hne _]]]].
  - subst o5 r5. eexists _, m2, _, m4, sc1, sc2, sc3, ss1, ss2.
    split; [exact E1|]. split; [exact E2|]. split; [exact E3|]. split; [exact E4|].
    split; [exact E5|].
    destruct (server_first_any _ _ _ _ _ _ _ _ _ Ems E2)
      as [evs [f' [two' [z' [user' [cn' [t' [data' [_ [N2 [V2 _]]]]]]]]]]].
    exists (evs ++ [EvValidate c]), c. split; [|split; [|exact O4]].
    + unfold new_events in *. rewrite N4, N2, app_assoc. reflexivity.
    + rewrite validations_app, V2. reflexivity.
  - exfalso. apply Hne. unfold m4, verifier_text, server_signature. f_equal. f_equal.
    destruct Hst as [_ Hk2], Hs as [_ [Sm Sp]]. rewrite Hk2. unfold server_key_of.
    rewrite !Sm, Sp. reflexivity.
Qed.

(** * Unknown users *)

Theorem unknown_user_first e s a plus m f two z user cn t data :
  s_mech s = XScramS a (Some (SsClientFirst plus)) ->
  client_first_fields m f two z user cn t ->
  (f = CbSupportedNotUsed -> plus = false) -> server_can_bind e f data ->
  looks_up e user z None ->
  exists out s' salt, step e s (Some m) [] = (Ok Running, out, s') /\
    salt = dummy_salt e (24 + s_rng s) /\
    continues out cn (nonce_from e (s_rng s)) (encode salt) salt (lit "16384") 16384.
Proof.
  intros Em Hf Hy Hb Hw.
  destruct (server_first_run e s a plus m f two z user cn t data None Em Hf Hy Hb Hw)
    as [out [s' [E [_ [[salt [Hl ->]] _]]]]]; [discriminate|].
  eexists _, s', salt. split; [exact E|]. split; [exact Hl|].
  apply default_continues. destruct Hf as [_ [_ [_ [Hn _]]]]. apply nonce_no_comma. exact Hn.
Qed.

Theorem unknown_user_refused e s0 a plus m1 script1 st out1 s1 evs m2 script2 r out2 s2 :
  s_mech s0 = XScramS a (Some (SsClientFirst plus)) ->
  step e s0 (Some m1) script1 = (Ok st, out1, s1) ->
  new_events s0 s1 evs -> answers PScramStoredPassword evs = [] ->
  step e s1 (Some m2) script2 = (r, out2, s2) ->
  validations evs = [] /\ new_events s1 s2 [] /\ s_val s2 = s_val s0 /\
  (exists rest, lit "e=unknown-user" = out2 ++ rest) /\
  (forall st2, r = Ok st2 -> no_zero script2 ->
     st2 = Finished true /\ out2 = lit "e=unknown-user") /\
  (forall cb fn exts p64, script2 = [] -> 
     m2 = final_bare cb fn ++ extensions_text exts ++ lit ",p=" ++ p64 ->
     free ","%char cb -> free ","%char fn -> free ","%char p64 -> Forall extension exts ->
     r = Ok (Finished true) /\ out2 = lit "e=unknown-user").
Proof.
  intros Em H1 Hn Ha H2.
  destruct (server_first_any _ _ _ _ _ _ _ _ _ Em H1)
    as [evs' [f [two [z [user [cn [t [data [-> [Hn' [Hval [Hsv [Hf [Hy [Hd Hs]]]]]]]]]]]]]]].
  assert (evs' = evs) as ->.
  { unfold new_events in Hn, Hn'. rewrite Hn in Hn'. apply app_inv_head in Hn'. auto. }
  cbv zeta in Hs. destruct Hs as [[sp [Ha' _]]|[Hw _]].
  { exfalso. change (pval PScramStoredPassword) with stored in *. rewrite Ha in Ha'. discriminate. }
  split; [exact Hval|].
  destruct (server_second_unknown _ _ _ _ _ _ _ _ Hw H2) as [He [Hv2 [Hpre Hok]]].
  split; [exact He|]. split; [congruence|]. split; [exact Hpre|]. split.
  - intros st2 Hr Hz. destruct (Hok st2 Hr) as [A [_ [B _]]]. auto.
  - intros cb fn exts p64 -> Em2 F1 F2 F3 F4.
    assert (Hp : client_final_parse m2 = Ok (mk_cl cb fn p64))
      by (apply client_final_parse_exact; exists exts; auto).
    assert (Hr : r = Ok (Finished true)).
    { apply (step_scram_server _ _ _ _ _ _ _ _ _ Hw) in H2.
      destruct H2 as [st1 [w' [H2 [-> ->]]]].
      unfold scram_server_step in H2. unfold bind at 1, getl in H2. unfold bind at 1, setl in H2.
      unfold handle_client_final in H2. rewrite Hp in H2.
      unfold scram_parse, of_res, rmap_err, send_final in H2. unfold bind at 1 2 3 in H2.
      rewrite write_all_vectored_full in H2 by reflexivity. cbv beta iota in H2.
      unfold ret, setl, bind in H2. injection H2 as <- _ _. reflexivity. }
    subst r. split; [reflexivity|]. apply (Hok _ eq_refl). constructor.
Qed.

(** * The client *)

Theorem client_verifies e s0 a plus input script1 st1 m1 s1 m2 script2 st2 m3 s2 :
  s_mech s0 = XScramC a (Some (ScInitial plus)) -> no_zero script1 -> no_zero script2 ->
  step e s0 input script1 = (Ok st1, m1, s1) ->
  step e s1 (Some m2) script2 = (Ok st2, m3, s2) ->
  exists hdr data user sn salt64 salt iters n evs ck sk,
    let cn := nonce_from e (s_rng s0) in
    let bare := final_bare (encode (hdr ++ data)) (cn ++ sn) in
    let am := rfc_auth_message (first_bare user cn) m2 bare in
    st1 = Running /\ st2 = Running /\
    m1 = hdr ++ first_bare user cn /\ continues m2 cn sn salt64 salt iters n /\
    new_events s1 s2 evs /\ validations evs = [] /\ keys_from e a evs salt n ck sk /\
    m3 = bare ++ lit ",p=" ++ encode (client_proof e a ck am) /\
    forall m4 script3 r out s3, step e s2 (Some m4) script3 = (r, out, s3) ->
      out = [] /\
      ((m4 = lit "v=" ++ encode (e_hmac e a sk am) /\ r = Ok (Finished false) /\
        exists c taken, offers_salt c salt n /\
          Forall (fun ev => ev = EvTaken PScramCachedPassword) taken /\
          new_events s2 s3 (EvAction PScramCachedPassword (mk_cached ck sk) c :: taken)) \/
       (m4 <> lit "v=" ++ encode (e_hmac e a sk am) /\ new_events s2 s3 [] /\
        (forall st, r <> Ok st) /\ (2 <= length m4 -> exists x, r = Err x) /\
        (forall v, m4 = lit "v=" ++ encode v -> r = Err EMutualAuthenticationFailed))).
Proof.
  intros Em Hz1 Hz2 H1 H2.
  destruct (client_first_any _ _ _ _ _ _ _ _ _ Em Hz1 H1)
    as [evs1 [flagt [zpart [data [user [uesc [_ [-> [Em1 [W1 _]]]]]]]]]].
  destruct (client_second _ _ _ _ _ _ _ _ _ _ _ W1 H2) as [[_ [Hno _]]|H];
    [exfalso; exact (Hno _ eq_refl)|].
  destruct H as [sn [salt64 [salt [iters [n [Hc H]]]]]].
  destruct (H st2 eq_refl) as [-> [evs [ck [sk [N [V [_ [K [_ [W2 O]]]]]]]]]].
  exists (flagt ++ lit "," ++ zpart ++ lit ","), data, uesc, sn, salt64, salt, iters, n, evs, ck, sk.
  cbv zeta. split; [reflexivity|]. split; [reflexivity|]. split; [exact Em1|]. split; [exact Hc|].
  split; [exact N|]. split; [exact V|]. split; [exact K|].
  assert (Em2 : m2 = server_first_text (nonce_from e (s_rng s0) ++ sn) salt64 iters) by apply Hc.
  split; [rewrite (O Hz2), Em2; reflexivity|].
  intros m4 script3 r out s3 H3.
  destruct (client_third _ _ _ _ _ _ _ _ _ _ _ _ _ W2 H3) as [-> [_ Hr]].
  split; [reflexivity|]. unfold server_signature, exchange_message in Hr. rewrite <- Em2 in Hr.
  exact Hr.
Qed.

(** Nothing is written or asked for unless the message continues the client's nonce. *)
Theorem client_no_leak e s a cb nonce user m script r out s' :
  client_waits s a cb nonce user ->
  step e s (Some m) script = (r, out, s') ->
  (forall sn salt64 salt iters n, ~ continues m nonce sn salt64 salt iters n) ->
  out = [] /\ new_events s s' [] /\ s_val s' = s_val s /\ forall st, r <> Ok st.
Proof.
  intros W H Hno. destruct (client_second _ _ _ _ _ _ _ _ _ _ _ W H) as [[_ [A [B [C D]]]]|Hc]; auto.
  destruct Hc as [sn [salt64 [salt [iters [n [Hc _]]]]]]. exfalso. exact (Hno _ _ _ _ _ Hc).
Qed.

(** The ways to supply the secret are interchangeable. *)
Theorem keys_equivalent e e' s s1 a cb nonce user m sn salt64 salt iters n p :
  client_waits s a cb nonce user -> client_waits s1 a cb nonce user ->
  continues m nonce sn salt64 salt iters n ->
  crypto_ok e -> same_crypto e e' -> gives_keys e a p salt n -> gives_keys e' a p salt n ->
  exists out s' s1' sig ck sk,
    step e s (Some m) [] = (Ok Running, out, s') /\
    step e' s1 (Some m) [] = (Ok Running, out, s1') /\
    client_expects s' a sig ck sk salt n /\ client_expects s1' a sig ck sk salt n /\
    ck = client_key_of e a (e_pbkdf2 e a p salt n) /\
    sk = server_key_of e a (e_pbkdf2 e a p salt n) /\
    forall m4 script, fst (fst (step e s' (Some m4) script)) = fst (fst (step e' s1' (Some m4) script)).
Proof.
  intros W W1 Hm Hc Hs K K1.
  assert (Hc' : crypto_ok e').
  { destruct Hs as [Sh [Sm Sp]], Hc as [Hh [Hmm Hp]].
    split; [intros; rewrite <- Sh; apply Hh|].
    split; intros; [rewrite <- Sm; apply Hmm|rewrite <- Sp; apply Hp]. }
  destruct (client_second_run _ _ _ _ _ _ _ _ _ _ _ _ _ W Hm Hc K) as [s' [E [X _]]].
  destruct (client_second_run _ _ _ _ _ _ _ _ _ _ _ _ _ W1 Hm Hc' K1) as [s1' [E1 [X1 _]]].
  cbv zeta in *.
  destruct Hs as [Sh [Sm Sp]].
  assert (A : client_key_of e' a (e_pbkdf2 e' a p salt n) = client_key_of e a (e_pbkdf2 e a p salt n))
    by (unfold client_key_of; rewrite <- Sm, <- Sp; reflexivity).
  assert (B : server_key_of e' a (e_pbkdf2 e' a p salt n) = server_key_of e a (e_pbkdf2 e a p salt n))
    by (unfold server_key_of; rewrite <- Sm, <- Sp; reflexivity).
  rewrite A in E1, X1. rewrite B in X1. unfold client_proof, server_signature in *.
  rewrite <- Sh, <- Sm in E1. rewrite <- Sm in X1.
  eexists _, s', s1', _, _, _. split; [exact E|]. split; [exact E1|]. split; [exact X|].
  split; [exact X1|]. split; [reflexivity|]. split; [reflexivity|].
  intros m4 script.
  destruct (step e s' (Some m4) script) as [[r o] t] eqn:F.
  destruct (step e' s1' (Some m4) script) as [[r1 o1] t1] eqn:F1. cbn [fst].
  pose proof (step_scram_client _ _ _ _ _ _ _ _ _ X F) as [u [w [G [_ _]]]].
  pose proof (step_scram_client _ _ _ _ _ _ _ _ _ X1 F1) as [u1 [w1 [G1 [_ _]]]].
  apply client_step3 in G. apply client_step3 in G1.
  destruct G as [q [G Hq]], G1 as [q1 [G1 Hq1]].
  assert (q = q1).
  { unfold handle_server_final in G, G1. unfold bind, scram_parse, of_res in G, G1.
    destruct (rmap_err _ (server_final_parse m4)) as [sf|x|]; try congruence.
    destruct sf as [v64|x]; [|unfold fail in *; congruence].
    cbn [wf_verifier wf_salt wf_iterations wf_client_key wf_server_key] in G, G1.
    destruct (decode v64) as [v|]; [|unfold scram_proto, fail in *; congruence].
    destruct (bytes_eqb _ v); [|unfold fail in *; congruence].
    apply ignored_action in G. apply ignored_action in G1.
    destruct G as [-> _], G1 as [-> _]. reflexivity. }
  subst q1.
  destruct Hq as [[A1 A2]|[[x [A1 A2]]|[A1 A2]]], Hq1 as [[B1 B2]|[[x1 [B1 B2]]|[B1 B2]]];
    congruence.
Qed.

(** * Names *)

Lemma client_flag_legal evs e plus f data :
  flag_for plus f ->
  match f with CbUsed name => client_binding e evs name data | _ => data = [] end ->
  (forall name, In name (answers POverrideCBType evs) -> legal_cbname name) -> legal_flag f.
Proof.
  intros _ H Hl. destruct f as [| |name]; try exact I. destruct H as [_ [H|[_ [H|[H _]]]]].
  - apply Hl. rewrite H. left; reflexivity.
  - subst. split; [discriminate|reflexivity].
  - subst. split; [discriminate|reflexivity].
Qed.

Theorem client_first_parses e s a plus input script st m s' evs :
  s_mech s = XScramC a (Some (ScInitial plus)) -> polite e -> no_zero script ->
  step e s input script = (Ok st, m, s') -> new_events s s' evs -> text_answers evs ->
  exists f z zesc user uesc,
    answers PAuthId evs = [user] /\ escape user = Ok uesc /\
    @answered PAuthzId evs z /\ escaped z zesc /\ flag_for plus f /\ 
    client_first_parse m = Ok (mk_cf f zesc uesc (nonce_from e (s_rng s))) /\
    client_first_fields m f (lit "a=") zesc uesc (nonce_from e (s_rng s)) [].
Proof.
  intros Em Hp Hz H Hn [T1 [T2 T3]].
  destruct (client_first_polite _ _ _ _ _ _ _ _ _ Em Hp Hz H)
    as [evs' [f [z [zesc [data [user [uesc [Hn' [_ [Em1 [_ [_ [_ [_ [Ha [Eu [Hz' [Ez [Hf Hd]]]]]]]]]]]]]]]]]]].
  assert (evs' = evs) as ->.
  { unfold new_events in Hn, Hn'. rewrite Hn in Hn'. apply app_inv_head in Hn'. auto. }
  exists f, z, zesc, user, uesc.
  assert (F : client_first_fields m f (lit "a=") zesc uesc (nonce_from e (s_rng s)) []).
  { rewrite Em1. eapply sent_fields; eauto.
    - apply T1. rewrite Ha. left; reflexivity.
    - intros x ->. apply T2. unfold answered in Hz'. rewrite Hz'. left; reflexivity.
    - eapply client_flag_legal; eauto.
    - apply nonce_from_legal. }
  repeat (split; [assumption|]). split; [|exact F]. exact (fields_parse _ _ _ _ _ _ _ F).
Qed.

Lemma escape_plain x y : escape x = Ok y -> free ","%char x -> free "="%char x -> y = x.
Proof.
  intros H A B. apply escape_flat in H. destruct H as [_ [_ ->]]. apply flat_free; assumption.
Qed.

Theorem identity_arrives ec es sc ss a plus splus input script st m sc' evs script2 r out ss' :
  s_mech sc = XScramC a (Some (ScInitial plus)) -> polite ec -> no_zero script ->
  step ec sc input script = (Ok st, m, sc') -> new_events sc sc' evs -> text_answers evs ->
  s_mech ss = XScramS a (Some (SsClientFirst splus)) ->
  step es ss (Some m) script2 = (r, out, ss') ->
  exists evs' z zesc user uesc,
    answers PAuthId evs = [user] /\ escape user = Ok uesc /\
    @answered PAuthzId evs z /\ escaped z zesc /\
    new_events ss ss' evs' /\ contexts_name evs' uesc zesc /\
    (free ","%char user -> free "="%char user ->
     (forall x, z = Some x -> free ","%char x /\ free "="%char x) -> contexts_name evs' user z).
Proof.
  intros Em Hp Hz H Hn T Es H2.
  destruct (client_first_parses _ _ _ _ _ _ _ _ _ _ Em Hp Hz H Hn T)
    as [f [z [zesc [user [uesc [Ha [Eu [Hz' [Ez [_ [P _]]]]]]]]]]].
  destruct (server_first_contexts _ _ _ _ _ _ _ _ _ _ Es P H2) as [evs' [N C]].
  cbn [cf_username cf_authzid] in C. exists evs', z, zesc, user, uesc.
  repeat (split; [assumption|]). intros F1 F2 F3.
  assert (uesc = user) as -> by (eapply escape_plain; eauto).
  assert (zesc = z) as ->.
  { destruct z as [z|], zesc as [y|]; cbn in Ez; try contradiction; [|reflexivity].
    destruct (F3 z eq_refl) as [G1 G2]. rewrite (escape_plain _ _ Ez G1 G2). reflexivity. }
  exact C.
Qed.

(** * Messages *)

Theorem server_first_parses e s a plus m script st out s' :
  s_mech s = XScramS a (Some (SsClientFirst plus)) -> no_zero script ->
  step e s (Some m) script = (Ok st, out, s') ->
  exists evs cf salt n, new_events s s' evs /\ client_first_parse m = Ok cf /\
    server_first_parse out =
      Ok (mk_sf (cf_nonce cf ++ nonce_from e (s_rng s)) (encode salt) (fmt_u32 n)) /\
    ((exists sp, answers PScramStoredPassword evs = [sp] /\ salt = st_salt sp /\ n = st_iterations sp) \/
     (server_pretends s' a /\ n = 16384%N /\ salt = dummy_salt e (24 + s_rng s))).
Proof.
  intros Em Hz H.
  destruct (server_first_any _ _ _ _ _ _ _ _ _ Em H)
    as [evs [f [two [z [user [cn [t [data [-> [Hn [_ [_ [Hf [_ [_ Hs]]]]]]]]]]]]]]].
  pose proof (fields_parse _ _ _ _ _ _ _ Hf) as Hp.
  assert (Fc : free ","%char cn) by (apply nonce_no_comma, Hf).
  assert (Fn : free ","%char (cn ++ nonce_from e (s_rng s)))
    by (apply free_app; [exact Fc|apply nonce_from_free]).
  cbv zeta in Hs. destruct Hs as [[sp [Ha [_ [_ [_ Ho]]]]]|[W [_ [_ [salt [Hl Ho]]]]]].
  - exists evs, (mk_cf f z user cn), (st_salt sp), (st_iterations sp).
    split; [exact Hn|]. split; [exact Hp|]. split; [|left; exists sp; auto].
    apply server_first_parse_exact. split; [exact (Ho Hz)|].
    split; [exact Fn|]. split; [apply encode_no; reflexivity|apply fmt_free].
  - exists evs, (mk_cf f z user cn), salt, 16384%N.
    split; [exact Hn|]. split; [exact Hp|]. split; [|right; auto].
    apply server_first_parse_exact. split; [exact (Ho Hz)|].
    split; [exact Fn|]. split; [apply encode_no; reflexivity|apply fmt_free].
Qed.

Theorem client_final_parses e s a b nonce user m script st out s' :
  client_waits s a (encode b) nonce user -> no_zero script ->
  step e s (Some m) script = (Ok st, out, s') ->
  exists sf ck, server_first_parse m = Ok sf /\
    client_final_parse out = Ok (mk_cl (encode b) (sf_nonce sf) (encode (client_proof e a ck
      (rfc_auth_message (first_bare user nonce) m (final_bare (encode b) (sf_nonce sf)))))).
Proof.
  intros W Hz H. destruct (client_second _ _ _ _ _ _ _ _ _ _ _ W H) as [[_ [Hno _]]|Hc];
    [exfalso; exact (Hno _ eq_refl)|].
  destruct Hc as [sn [salt64 [salt [iters [n [Hc Hr]]]]]].
  destruct (Hr st eq_refl) as [_ [evs [ck [sk [_ [_ [_ [_ [_ [_ Ho]]]]]]]]]].
  destruct Hc as [Em [_ [_ [_ [_ [F1 [F2 F3]]]]]]].
  exists (mk_sf (nonce ++ sn) salt64 iters), ck. split; [apply server_first_parse_exact; auto|].
  cbn [sf_nonce]. apply client_final_parse_exact. exists []. 
  split; [rewrite (Ho Hz), Em; reflexivity|].
  split; [apply encode_no; reflexivity|]. split; [exact F1|].
  split; [apply encode_no; reflexivity|constructor].
Qed.

Theorem server_final_parses e s a cn sn header user z sp m script st out s' :
  server_waits s a cn sn header user z sp \/ server_pretends s a -> crypto_ok e -> no_zero script ->
  step e s (Some m) script = (Ok st, out, s') ->
  (exists sig, length sig = hlen a /\ out = lit "v=" ++ encode sig /\
     server_final_parse out = Ok (SfVerifier (encode sig))) \/
  (exists x v, error_value x v /\ out = lit "e=" ++ v /\ server_final_parse out = Ok (SfError x)).
Proof.
  intros [W|W] Hc Hz H.
  - destruct (server_second _ _ _ _ _ _ _ _ _ _ _ _ _ _ W Hc H) as [Hs|[_ [_ [_ [_ Hr]]]]].
    + left. destruct Hs as [cb [p64 [exts [rest [_ [Ev Hr]]]]]].
      destruct Hr as [[x [? _]]|[c [_ [_ [Hrest _]]]]]; [discriminate|].
      rewrite (Hrest Hz), app_nil_r in Ev. eexists. rewrite <- Ev. split; [|split; [reflexivity|]].
      * apply Hc.
      * apply server_final_parse_verifier.
    + right. destruct (Hr st eq_refl) as [_ [_ Hm]]. destruct (Hm Hz) as [x [v [Hv ->]]].
      exists x, v. split; [exact Hv|]. split; [reflexivity|]. apply error_values in Hv. subst v.
      apply server_final_parse_error.
  - destruct (server_second_unknown _ _ _ _ _ _ _ _ W H) as [_ [_ [_ Hr]]].
    destruct (Hr st eq_refl) as [_ [_ [Ho _]]]. right. exists SeUnknownUser, (lit "unknown-user").
    rewrite (Ho Hz). split; [constructor|]. split; reflexivity.
Qed.
