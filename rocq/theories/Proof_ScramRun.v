(** SCRAM exchanges that succeed. *)
From Coq Require Import Lia.
From Verif Require Import Bytes BytesFacts Utf8 Utf8Facts Types World CallbackSpec WorldFacts Base64
  Base64Facts Num NumFacts Simple OAuth ScramParser Scram Gssapi Session
  Spec_Simple Spec_OAuth Spec_ScramText Spec_Scram MonadFacts Frame Proof_Simple Proof_OAuth
  Proof_ScramText Proof_Scram Spec_Wire Proof_Wire.
Open Scope m_scope.

(** [m] succeeds with value [a], locals [l'], having written [out] and drawn [n] numbers. *)
Definition succeeds {L A} (m : M L A) (l : L) (w : world) (a : A) (l' : L) (out : bytes) (n : nat)
  : Prop :=
  exists w' evs, m l w = (Ok a, l', w') /\ did evs out n w w'.

Lemma succeeds_bind {L A B} (m : M L A) (f : A -> M L B) l w a l1 o1 n1 b l2 o2 n2 o n :
  succeeds m l w a l1 o1 n1 ->
  (forall w1, (exists evs, did evs o1 n1 w w1) -> succeeds (f a) l1 w1 b l2 o2 n2) ->
  o = o1 ++ o2 -> n = n2 + n1 ->
  succeeds (bind m f) l w b l2 o n.
Proof.
  intros [w1 [evs1 [E1 D1]]] H -> ->. destruct (H w1 (ex_intro (fun evs => did evs o1 n1 w w1) _ D1)) as [w2 [evs2 [E2 D2]]].
  exists w2, (evs1 ++ evs2). split; [rewrite (bind_step _ _ _ _ _ _ _ E1); exact E2|].
  exact (did_trans _ _ _ _ _ _ _ _ _ D1 D2).
Qed.
Lemma succeeds_pure {L A} (m : M L A) l w a l' :
  m l w = (Ok a, l', w) -> succeeds m l w a l' [] 0.
Proof. intros E. exists w, []. split; [exact E|apply did_refl]. Qed.

Lemma maybe_some {L G} e q c (f : pval q -> M L G) v l w g l1 :
  provides e q v -> (forall w, f v l w = (Ok g, l1, w)) ->
  succeeds (maybe_need_with e q c f) l w (Some g) l1 [] 0.
Proof.
  intros Hp Hf. destruct (maybe_need_with_provides e q v c f l w Hp) as [cs [_ E]].
  rewrite Hf in E. eexists _, _. split; [exact E|apply did_events].
Qed.
Lemma maybe_none {L G} e q c (f : pval q -> M L G) l w :
  withholds e q -> succeeds (maybe_need_with e q c f) l w None l [] 0.
Proof.
  intros Hp. destruct (maybe_need_with_withholds e q c f l w Hp) as [cs [_ E]].
  eexists _, _. split; [exact E|apply did_events].
Qed.
Lemma need_some {L G} e q c (f : pval q -> M L G) v l w g l1 :
  provides e q v -> (forall w, f v l w = (Ok g, l1, w)) ->
  succeeds (need_with e q c f) l w g l1 [] 0.
Proof.
  intros Hp Hf. unfold need_with.
  refine (succeeds_bind _ _ _ _ _ _ _ _ _ _ [] 0 _ _ (maybe_some e q c f v l w g l1 Hp Hf) _
    eq_refl eq_refl).
  intros w1 _. apply succeeds_pure. reflexivity.
Qed.
Lemma maybe_cb_some {L G} e name c (f : bytes -> M L G) d l w g l1 :
  binding_available e name d -> (forall w, f d l w = (Ok g, l1, w)) ->
  succeeds (maybe_need_cb_data e name c f) l w (Some g) l1 [] 0.
Proof.
  intros Hb Hf. unfold maybe_need_cb_data.
  refine (succeeds_bind _ _ _ _ tt l [] 0 _ _ [] 0 _ _ _ _ eq_refl eq_refl).
  - eexists _, [EvChan name]. split; [reflexivity|]. rewrite add_event_events. apply did_events.
  - intros w1 _. destruct Hb as [E|[E Hp]]; rewrite E.
    + apply succeeds_pure. unfold bind. rewrite Hf. reflexivity.
    + apply maybe_some with (v := d); assumption.
Qed.
Lemma maybe_cb_none {L G} e name c (f : bytes -> M L G) l w :
  e_chan e name = None -> withholds e PChannelBindings ->
  succeeds (maybe_need_cb_data e name c f) l w None l [] 0.
Proof.
  intros E Hf. unfold maybe_need_cb_data.
  refine (succeeds_bind _ _ _ _ tt l [] 0 _ _ [] 0 _ _ _ _ eq_refl eq_refl).
  - eexists _, [EvChan name]. split; [reflexivity|]. rewrite add_event_events. apply did_events.
  - intros w1 _. rewrite E. apply maybe_none. exact Hf.
Qed.
Lemma need_cb_some {L G} e name c (f : bytes -> M L G) d l w g l1 :
  binding_available e name d -> (forall w, f d l w = (Ok g, l1, w)) ->
  succeeds (need_cb_data e name c f) l w g l1 [] 0.
Proof.
  intros Hb Hf. unfold need_cb_data.
  refine (succeeds_bind _ _ _ _ _ _ _ _ _ _ [] 0 _ _ (maybe_cb_some e name c f d l w g l1 Hb Hf) _
    eq_refl eq_refl).
  intros w1 _. apply succeeds_pure. reflexivity.
Qed.
Lemma succeeds_draws {L} e (l : L) w :
  succeeds (generate_nonce e) l w (nonce_from e (w_rng w)) l [] 24.
Proof. eexists _, []. split; [apply nonce_ok|apply did_draws]. Qed.
Lemma succeeds_vectored {L} bufs (l : L) w : w_script w = [] ->
  succeeds (write_all_vectored bufs) l w (length (concat bufs)) l (concat bufs) 0.
Proof.
  intros Hs. eexists _, []. split; [apply write_all_vectored_full; exact Hs|].
  unfold did, add_out. cbn. rewrite app_nil_r. repeat split. apply script_left_refl.
Qed.
Lemma did_script evs out n w w' : did evs out n w w' -> w_script w = [] -> w_script w' = [].
Proof.
  intros [_ [_ [_ [_ [u H]]]]] E. rewrite E in H. destruct u; [|discriminate]. symmetry. exact H.
Qed.
Lemma did_rng evs out n w w' : did evs out n w w' -> w_rng w' = n + w_rng w.
Proof. intros H. apply H. Qed.

(** * Client first *)

Lemma cbflag_run e plus f data w :
  client_can_bind e plus f data ->
  exists d, odata d = data /\
    succeeds (client_cbflag e plus) ([], None) w tt (flag_text f, d) [] 0.
Proof.
  destruct plus; cbn [client_can_bind].
  1-2: intros [-> ->]; exists None; split; [reflexivity|]; apply succeeds_pure; reflexivity.
  intros [name [-> Hb]]. exists (Some data). split; [reflexivity|]. unfold client_cbflag.
  refine (succeeds_bind _ _ _ _ tt (lit "p=", None) [] 0 _ _ [] 0 _ _ _ _ eq_refl eq_refl).
  { apply succeeds_pure. reflexivity. }
  intros w1 _. destruct Hb as [[Ho Ha]|[Ho Ha]].
  - refine (succeeds_bind _ _ _ _ (Some name) (lit "p=" ++ name, None) [] 0 _ _ [] 0 _ _ _ _ eq_refl eq_refl).
    { apply maybe_some with (v := name); [exact Ho|]. intros; reflexivity. }
    intros w2 _. apply need_cb_some with (d := data); [exact Ha|]. intros; reflexivity.
  - refine (succeeds_bind _ _ _ _ None (lit "p=", None) [] 0 _ _ [] 0 _ _ _ _ eq_refl eq_refl).
    { apply maybe_none. exact Ho. }
    intros w2 _. destruct Ha as [[-> Ha]|[-> [Ee [Hw Hu]]]].
    + refine (succeeds_bind _ _ _ _ (Some tt) (lit "p=tls-exporter", Some data) [] 0 _ _ [] 0 _ _ _ _ eq_refl eq_refl).
      { apply maybe_cb_some with (d := data); [exact Ha|]. intros; reflexivity. }
      intros w3 _. apply succeeds_pure. reflexivity.
    + refine (succeeds_bind _ _ _ _ None (lit "p=", None) [] 0 _ _ [] 0 _ _ _ _ eq_refl eq_refl).
      { apply maybe_cb_none; assumption. }
      intros w3 _. apply need_cb_some with (d := data); [left; exact Hu|]. intros; reflexivity.
Qed.

Theorem client_first_run e s a plus input f data user uesc z zesc :
  s_mech s = XScramC a (Some (ScInitial plus)) ->
  client_can_bind e plus f data ->
  provides e PAuthId user -> escape user = Ok uesc ->
  answers_with e PAuthzId z -> escaped z zesc ->
  exists s', step e s input [] =
      (Ok Running, gs2_text f zesc ++ first_bare uesc (nonce_from e (s_rng s)), s') /\
    client_waits s' a (encode (gs2_text f zesc ++ data)) (nonce_from e (s_rng s)) uesc /\
    s_rng s' = 24 + s_rng s /\ s_val s' = s_val s.
Proof.
  intros Em Hb Hu Eu Hz Ez.
  set (w := mk_world [] [] (s_trace s) (s_rng s) (s_val s)).
  destruct (cbflag_run e plus f data w Hb) as [d [Hd Hcb]].
  set (n := nonce_from e (s_rng s)).
  assert (H : succeeds (send_client_first e plus) ([], None) w
     (mk_wsf (encode (gs2_text f zesc ++ data)) n uesc) (gs2_text f zesc, d)
     (gs2_text f zesc ++ first_bare uesc n) 24).
  { rewrite send_client_first_eq.
    refine (succeeds_bind _ _ _ _ _ _ _ _ _ _ _ 24 _ _ Hcb _ eq_refl eq_refl).
    intros w1 [evs1 D1].
    refine (succeeds_bind _ _ _ _ tt (flag_text f ++ lit ",", d) [] 0 _ _ _ 24 _ _ _ _ eq_refl eq_refl).
    { apply succeeds_pure. reflexivity. }
    intros w2 [evs2 D2].
    set (h := flag_text f ++ lit "," ++ match zesc with Some y => lit "a=" ++ y | None => [] end).
    refine (succeeds_bind _ _ _ _ (match z with Some _ => Some tt | None => None end) (h, d)
              [] 0 _ _ _ 24 _ _ _ _ eq_refl eq_refl).
    { destruct z as [z|], zesc as [y|]; cbn in Ez; try contradiction.
      - apply maybe_some with (v := z); [exact Hz|]. intros w3. rewrite authzid_consumer_eq, Ez.
        cbn [fst snd]. unfold h. rewrite <- app_assoc. reflexivity.
      - unfold h. rewrite app_nil_r. apply maybe_none. exact Hz. }
    intros w3 [evs3 D3]. unfold scf_user.
    assert (Hh : h ++ lit "," = gs2_text f zesc)
      by (unfold h, gs2_text; rewrite <- !app_assoc; reflexivity).
    refine (succeeds_bind _ _ _ _ tt (gs2_text f zesc, d) [] 0 _ _ _ 24 _ _ _ _ eq_refl eq_refl).
    { apply succeeds_pure. rewrite push_ok. cbn [fst snd]. rewrite Hh. reflexivity. }
    intros w4 [evs4 D4].
    refine (succeeds_bind _ _ _ _ uesc (gs2_text f zesc, d) [] 0 _ _ _ 24 _ _ _ _ eq_refl eq_refl).
    { apply need_some with (v := user); [exact Hu|]. intros w5. apply esc_ok. auto. }
    intros w5 [evs5 D5].
    assert (En : nonce_from e (w_rng w5) = n).
    { unfold n. rewrite (did_rng _ _ _ _ _ D5), (did_rng _ _ _ _ _ D4), (did_rng _ _ _ _ _ D3),
        (did_rng _ _ _ _ _ D2), (did_rng _ _ _ _ _ D1). reflexivity. }
    refine (succeeds_bind _ _ _ _ n (gs2_text f zesc, d) [] 24 _ _ _ 0 _ _ _ _ eq_refl eq_refl).
    { rewrite <- En. apply succeeds_draws. }
    intros w6 [evs6 D6].
    refine (succeeds_bind _ _ _ _ (gs2_text f zesc, d) (gs2_text f zesc, d) [] 0 _ _ _ 0 _ _ _ _ eq_refl eq_refl).
    { apply succeeds_pure. reflexivity. }
    intros w7 [evs7 D7]. cbn [fst snd].
    refine (succeeds_bind _ _ _ _ _ _ _ _ _ _ [] 0 _ _ (succeeds_vectored _ _ _ _) _ _ eq_refl).
    { do 7 (eapply did_script; [eassumption|]). reflexivity. }
    - intros w8 _. apply succeeds_pure. unfold ret. f_equal. f_equal. f_equal. f_equal. f_equal.
      destruct d; cbn [odata] in Hd; subst data; [reflexivity|rewrite app_nil_r; reflexivity].
    - cbn [concat]. rewrite !app_nil_r. reflexivity. }
  destruct H as [w' [evs [E D]]].
  assert (Est : step e s input [] = (Ok Running, w_out w',
     mk_session (XScramC a (Some (ScClientFirst (mk_wsf (encode (gs2_text f zesc ++ data)) n uesc))))
        (w_trace w') (w_rng w') (w_val w'))).
  { unfold step, run, mech_step. rewrite Em. unfold bind, getl, on. unfold scram_client_step.
    unfold bind at 1, getl. unfold bind at 1, setl. unfold bind, locally. fold w. rewrite E.
    reflexivity. }
  destruct D as [_ [O [R [V _]]]]. cbn [w w_out w_rng w_val app] in O, R, V.
  eexists. split; [rewrite Est, O; reflexivity|]. split; [reflexivity|]. auto.
Qed.

(** * Server first *)

Lemma random_run {L} e (l : L) w :
  succeeds (random_bytes e default_salt_len) l w (dummy_salt e (w_rng w)) l [] 32.
Proof. eexists _, []. split; [exact (random_ok e l w)|apply did_draws]. Qed.
Lemma first_slices cn sn salt it :
  concat (server_first_slices cn sn salt it) = server_first_text (cn ++ sn) salt it.
Proof.
  unfold server_first_slices, server_first_text. cbn [concat]. rewrite !app_nil_r, <- !app_assoc.
  reflexivity.
Qed.

Lemma hcf_run e cf params h w :
  w_script w = [] ->
  let sn := nonce_from e (w_rng w) in
  match params with
  | Some (it, salt, k1, k2) =>
      succeeds (hcf_send e cf params) h w
        (Some (mk_fi (cf_nonce cf) sn h (cf_username cf) (cf_authzid cf) salt it k1 k2)) h
        (server_first_text (cf_nonce cf ++ sn) salt it) 24
  | None => exists salt, salt = dummy_salt e (24 + w_rng w) /\
      succeeds (hcf_send e cf params) h w None h
        (server_first_text (cf_nonce cf ++ sn) (encode salt) (lit "16384")) (32 + 24)
  end.
Proof.
  intros Hs sn. pose proof (succeeds_draws e h w) as Hd. fold sn in Hd.
  destruct params as [[[[it salt] k1] k2]|]; unfold hcf_send.
  - refine (succeeds_bind _ _ _ _ sn h [] 24 _ _ _ 0 _ _ Hd _ eq_refl eq_refl).
    intros w1 [evs1 D1].
    refine (succeeds_bind _ _ _ _ _ _ _ _ _ _ [] 0 _ _ (succeeds_vectored _ _ _ _) _ _ eq_refl).
    { exact (did_script _ _ _ _ _ D1 Hs). }
    + intros w2 _. apply succeeds_pure. reflexivity.
    + rewrite first_slices, app_nil_r. reflexivity.
  - set (salt := dummy_salt e (24 + w_rng w)). exists salt. split; [reflexivity|].
    pose proof (random_run e h
      (mk_world (w_out w) (w_script w) (w_trace w) (24 + w_rng w) (w_val w))) as Hr.
    cbn [w_rng] in Hr. fold salt in Hr.
    destruct Hr as [w2 [evs2 [E2 D2]]].
    assert (Hs2 : w_script w2 = []) by exact (did_script _ _ _ _ _ D2 Hs).
    destruct (succeeds_vectored (server_first_slices (cf_nonce cf) sn (encode salt) default_iterations)
                h w2 Hs2) as [w3 [evs3 [E3 D3]]].
    exists w3, (evs2 ++ evs3). split.
    + rewrite (bind_step _ _ _ _ _ _ _ (nonce_ok e h w)). fold sn.
      rewrite (bind_step _ _ _ _ _ _ _ E2). rewrite (bind_step _ _ _ _ _ _ _ E3). reflexivity.
    + rewrite first_slices in D3. pose proof (did_trans _ _ _ _ _ _ _ _ _ D2 D3) as D.
      destruct D as [A [B [C [D E]]]]. cbn [w_trace w_out w_rng w_val w_script app] in *.
      unfold did. unfold default_salt_len, default_iterations in *.
      repeat split; assumption.
Qed.

Lemma server_provider_offers user z : offers_scram (scram_server_provider user z) user z.
Proof.
  split; [reflexivity|]. split; [destruct z; reflexivity|].
  intros q H1 H2. destruct z; destruct q; try reflexivity; congruence.
Qed.
Lemma looked_up {L G} e user z sp (f : stored -> M L G) l w :
  looks_up e user z (Some sp) ->
  let prov := scram_server_provider user z in
  exists cs, only_closures cs /\
  maybe_need_with e PScramStoredPassword prov f l w =
  match f sp l (add_events (EvRequest PScramStoredPassword prov
                  :: cs ++ [EvAnswer PScramStoredPassword sp]) w) with
  | (r, l1, w1) => (polite_result r, l1, w1)
  end.
Proof.
  intros H prov. destruct (H (w_trace w) prov (server_provider_offers user z)) as [Hb Ha].
  destruct (maybe_need_with_bubbling e PScramStoredPassword prov f l w Hb) as [cs [Hc E]].
  rewrite Ha in E. eauto.
Qed.
Lemma not_looked_up {L G} e user z (f : stored -> M L G) l w :
  looks_up e user z None ->
  let prov := scram_server_provider user z in
  exists cs, only_closures cs /\
  maybe_need_with e PScramStoredPassword prov f l w
  = (Ok None, l, add_events (EvRequest PScramStoredPassword prov :: cs) w).
Proof.
  intros H prov. destruct (H (w_trace w) prov (server_provider_offers user z)) as [Hb Ha].
  destruct (maybe_need_with_bubbling e PScramStoredPassword prov f l w Hb) as [cs [Hc E]].
  exists cs; split; [assumption|]. destruct Ha as [Ha|Ha]; rewrite Ha in E; exact E.
Qed.

Theorem server_first_run e s a plus m f two z user cn t data (o : option stored) :
  s_mech s = XScramS a (Some (SsClientFirst plus)) ->
  client_first_fields m f two z user cn t ->
  (f = CbSupportedNotUsed -> plus = false) ->
  server_can_bind e f data ->
  looks_up e user z o -> (forall sp, o = Some sp -> usable a sp) ->
  let sn := nonce_from e (s_rng s) in
  exists out s', step e s (Some m) [] = (Ok Running, out, s') /\ s_val s' = s_val s /\
    match o with
    | Some sp =>
        out = server_first_text (cn ++ sn) (encode (st_salt sp)) (fmt_u32 (st_iterations sp)) /\
        server_waits s' a cn sn (gs2_text f z ++ data) user z sp
    | None =>
        (exists salt, salt = dummy_salt e (24 + s_rng s) /\
           out = server_first_text (cn ++ sn) (encode salt) (lit "16384")) /\
        server_pretends s' a
    end.
Proof.
  intros Em Hf Hy Hb Ho Hu sn.
  set (w := mk_world [] [] (s_trace s) (s_rng s) (s_val s)).
  pose proof (fields_parse _ _ _ _ _ _ _ Hf) as Hp.
  set (cf := mk_cf f z user cn) in *.
  set (prov := scram_server_provider user z).
  assert (Hb' : forall w1, succeeds (hcf_bind e plus cf prov) (gs2_text f z) w1 tt
                             (gs2_text f z ++ data) [] 0).
  { intros w1. unfold hcf_bind, cf. cbn [cf_cbflag]. destruct f as [| |name]; cbn in Hb.
    - rewrite (Hy eq_refl). subst data. rewrite app_nil_r. apply succeeds_pure. reflexivity.
    - subst data. rewrite app_nil_r. apply succeeds_pure. reflexivity.
    - apply need_cb_some with (d := data); [exact Hb|]. intros; reflexivity. }
  pose (params := match o with
     | Some sp => Some (fmt_u32 (st_iterations sp), encode (st_salt sp), st_stored_key sp,
                        st_server_key sp)
     | None => None end).
  assert (Hm : forall h w1, succeeds (maybe_need_with e PScramStoredPassword prov (stored_consumer a))
                h w1 params h [] 0).
  { intros h w1. unfold params. destruct o as [sp|].
    - destruct (looked_up e user z sp (stored_consumer a) h w1 Ho) as [cs [_ E]].
      unfold stored_consumer at 2 in E.
      destruct (Hu sp eq_refl) as [H1 H2]. rewrite H1, H2, Nat.eqb_refl in E.
      eexists _, _. split; [exact E|apply did_events].
    - destruct (not_looked_up e user z (stored_consumer a) h w1 Ho) as [cs [_ E]].
      eexists _, _. split; [exact E|apply did_events]. }
  destruct (Hb' w) as [w1 [ev1 [E1 D1]]].
  destruct (Hm (gs2_text f z ++ data) w1) as [w2 [ev2 [E2 D2]]].
  pose proof (did_trans _ _ _ _ _ _ _ _ _ D1 D2) as D12. cbn [app Nat.add] in D12.
  assert (Hs2 : w_script w2 = []) by exact (did_script _ _ _ _ _ D12 eq_refl).
  pose proof (hcf_run e cf params (gs2_text f z ++ data) w2 Hs2) as Hr.
  rewrite (did_rng _ _ _ _ _ D12) in Hr. cbn [Nat.add w w_rng] in Hr. fold sn in Hr.
  assert (Est : forall d h w3, hcf_send e cf params (gs2_text f z ++ data) w2 = (Ok d, h, w3) ->
     step e s (Some m) [] = (Ok Running, w_out w3,
       mk_session (XScramS a (Some (SsClientFinal d))) (w_trace w3) (w_rng w3) (w_val w3))).
  { intros d h w3 E3.
    assert (E : handle_client_first e a plus m [] w = (Ok d, h, w3)).
    { rewrite handle_client_first_eq, Hp.
      assert (E0 : scram_parse (Ok cf) ([] : bytes) w = (Ok cf, [], w)) by reflexivity.
      rewrite (bind_step _ _ _ _ _ _ _ E0).
      assert (E0' : setl (build_gs2_header cf) ([] : bytes) w = (Ok tt, gs2_text f z, w))
        by (rewrite build_header; reflexivity).
      rewrite (bind_step _ _ _ _ _ _ _ E0'). cbv zeta. cbn [cf cf_username cf_authzid].
      fold prov. fold cf. rewrite (bind_step _ _ _ _ _ _ _ E1).
      rewrite (bind_step _ _ _ _ _ _ _ E2). exact E3. }
    unfold step, run, mech_step. rewrite Em. unfold bind, getl, on. unfold scram_server_step.
    unfold bind at 1, getl. unfold bind at 1, setl. unfold bind, locally. fold w. rewrite E.
    reflexivity. }
  destruct o as [sp|]; cbn [params] in Hr.
  - destruct Hr as [w3 [ev3 [E3 D3]]]. pose proof (did_trans _ _ _ _ _ _ _ _ _ D12 D3) as D.
    destruct D as [_ [O [_ [V _]]]]. cbn [app w w_out w_val] in O, V.
    eexists _, _. split; [exact (Est _ _ _ E3)|]. split; [exact V|]. split; [exact O|]. reflexivity.
  - destruct Hr as [salt [Hl [w3 [ev3 [E3 D3]]]]].
    pose proof (did_trans _ _ _ _ _ _ _ _ _ D12 D3) as D.
    destruct D as [_ [O [_ [V _]]]]. cbn [app w w_out w_val] in O, V.
    eexists _, _. split; [exact (Est _ _ _ E3)|]. split; [exact V|]. split; [|reflexivity].
    exists salt. split; [exact Hl|exact O].
Qed.

(** * Client final *)

Lemma final_slices cb fn p :
  concat (client_final_slices (mk_cl cb fn p)) = final_bare cb fn ++ lit ",p=" ++ p.
Proof.
  unfold client_final_slices, final_bare. cbn [concat cl_cb cl_nonce cl_proof].
  rewrite app_nil_r, <- !app_assoc. reflexivity.
Qed.

Lemma keys_run {L} e a p salt n (l : L) w :
  crypto_ok e -> gives_keys e a p salt n ->
  let salted := e_pbkdf2 e a p salt n in
  succeeds (client_keys e a salt n) l w (client_key_of e a salted, server_key_of e a salted) l [] 0.
Proof.
  intros Hc Hg salted. unfold client_keys. cbv zeta.
  destruct Hg as [H1|[[H1 [Hne H2]]|[H1 [H2 H3]]]].
  - refine (succeeds_bind _ _ _ _
      (Some (client_key_of e a salted, server_key_of e a salted)) l [] 0 _ _ [] 0 _ _ _ _ eq_refl eq_refl).
    + eapply maybe_some; [exact H1|]. intros w1. cbn [ca_client_key ca_server_key].
      destruct Hc as [_ [Hh _]]. unfold client_key_of, server_key_of. rewrite !Hh, Nat.eqb_refl.
      reflexivity.
    + intros w1 _. apply succeeds_pure. reflexivity.
  - refine (succeeds_bind _ _ _ _ None l [] 0 _ _ [] 0 _ _ (maybe_none _ _ _ _ _ _ H1) _ eq_refl eq_refl).
    intros w1 _.
    refine (succeeds_bind _ _ _ _
      (Some (client_key_of e a salted, server_key_of e a salted)) l [] 0 _ _ [] 0 _ _ _ _ eq_refl eq_refl).
    + eapply maybe_some; [exact H2|]. intros w2. fold salted in Hne |- *.
      destruct salted; [contradiction|]. reflexivity.
    + intros w2 _. apply succeeds_pure. reflexivity.
  - refine (succeeds_bind _ _ _ _ None l [] 0 _ _ [] 0 _ _ (maybe_none _ _ _ _ _ _ H1) _ eq_refl eq_refl).
    intros w1 _.
    refine (succeeds_bind _ _ _ _ None l [] 0 _ _ [] 0 _ _ (maybe_none _ _ _ _ _ _ H2) _ eq_refl eq_refl).
    intros w2 _. eapply need_some; [exact H3|]. intros w3. reflexivity.
Qed.

Theorem client_second_run e s a cb nonce user m sn salt64 salt iters n p :
  client_waits s a cb nonce user -> continues m nonce sn salt64 salt iters n ->
  crypto_ok e -> gives_keys e a p salt n ->
  let ck := client_key_of e a (e_pbkdf2 e a p salt n) in
  let sk := server_key_of e a (e_pbkdf2 e a p salt n) in
  let am := exchange_message user nonce sn salt64 iters cb in
  exists s', step e s (Some m) [] =
      (Ok Running, final_bare cb (nonce ++ sn) ++ lit ",p=" ++ encode (client_proof e a ck am), s') /\
    client_expects s' a (server_signature e a sk am) ck sk salt n /\ s_val s' = s_val s.
Proof.
  intros Em Hm Hc Hg ck sk am.
  set (w := mk_world [] [] (s_trace s) (s_rng s) (s_val s)).
  assert (Hl : length (client_proof e a ck am) = hlen a).
  { unfold client_proof, ck, client_key_of. rewrite <- xor_zip_text, xor_zip_length. destruct Hc as [_ [Hh _]].
    rewrite !Hh. apply Nat.min_id. }
  assert (Ham : forall k, snd (compute_signatures e a (e_hash e a ck) k user nonce sn salt64 iters cb)
                = e_hmac e a k am /\
                fst (compute_signatures e a (e_hash e a ck) k user nonce sn salt64 iters cb)
                = e_hmac e a (e_hash e a ck) am).
  { intros k. unfold compute_signatures. cbn [fst snd]. rewrite auth_message_rfc. auto. }
  assert (H : succeeds (@hsf_answer (option scram_cst) e a cb nonce user sn salt64 iters salt n) None w
     (mk_wsfin (server_signature e a sk am) ck sk salt n) None
     (final_bare cb (nonce ++ sn) ++ lit ",p=" ++ encode (client_proof e a ck am)) 0).
  { unfold hsf_answer.
    refine (succeeds_bind _ _ _ _ (ck, sk) None [] 0 _ _ _ 0 _ _ (keys_run _ _ _ _ _ _ _ Hc Hg) _
              eq_refl eq_refl).
    intros w1 [ev1 D1]. cbv zeta. cbn [fst snd]. destruct (Ham sk) as [-> ->]. rewrite xor_zip_text. fold (client_proof e a ck am).
    refine (succeeds_bind _ _ _ _ (client_proof e a ck am) None [] 0 _ _ _ 0 _ _ _ _ eq_refl eq_refl).
    { apply succeeds_pure. apply exact_ok. exact Hl. }
    intros w2 [ev2 D2].
    refine (succeeds_bind _ _ _ _ _ _ _ _ _ _ [] 0 _ _ (succeeds_vectored _ _ _ _) _ _ eq_refl).
    { exact (did_script _ _ _ _ _ D2 (did_script _ _ _ _ _ D1 eq_refl)). }
    - intros w3 _. apply succeeds_pure. reflexivity.
    - rewrite app_nil_r. symmetry. apply final_slices. }
  destruct H as [w' [evs [E D]]].
  assert (Eh : handle_server_first e a (mk_wsf cb nonce user) m (None : option scram_cst) w =
     (Ok (mk_wsfin (server_signature e a sk am) ck sk salt n), None, w')).
  { destruct (handle_server_first e a (mk_wsf cb nonce user) m (None : option scram_cst) w)
      as [[r l'] w1] eqn:Eh.
    destruct (server_first_handled _ _ _ _ _ _ _ _ _ _ _ Eh) as [[Hno _]|H].
    - exfalso. exact (Hno _ _ _ _ _ Hm).
    - destruct H as [sn' [salt64' [salt' [iters' [n' [Hm' H]]]]]].
      assert (sn' = sn /\ salt64' = salt64 /\ iters' = iters /\ salt' = salt /\ n' = n) as HE.
      { destruct Hm as [E1 [_ [E2 [E3 [_ [F1 [F2 F3]]]]]]].
        destruct Hm' as [E1' [_ [E2' [E3' [_ [F1' [F2' F3']]]]]]].
        pose proof (proj2 (server_first_parse_exact m _ _ _) (conj E1 (conj F1 (conj F2 F3)))) as P.
        pose proof (proj2 (server_first_parse_exact m _ _ _) (conj E1' (conj F1' (conj F2' F3')))) as P'.
        rewrite P in P'. injection P' as P1 P2 P3. apply app_inv_head in P1. subst.
        rewrite E2 in E2'. rewrite E3 in E3'. injection E2' as ->. injection E3' as ->. auto. }
      destruct HE as [-> [-> [-> [-> ->]]]]. rewrite E in H. congruence. }
  assert (Est : step e s (Some m) [] = (Ok Running, w_out w',
     mk_session (XScramC a (Some (ScServerFirst (mk_wsfin (server_signature e a sk am) ck sk salt n))))
        (w_trace w') (w_rng w') (w_val w'))).
  { unfold step, run, mech_step. rewrite Em. unfold bind, getl, on. unfold scram_client_step.
    unfold bind at 1, getl. unfold bind at 1, setl. unfold bind. fold w. rewrite Eh.
    reflexivity. }
  destruct D as [_ [O [_ [V _]]]]. cbn [w w_out w_val app] in O, V.
  eexists. split; [rewrite Est, O; reflexivity|]. split; [reflexivity|exact V].
Qed.

(** * Server final *)

Theorem server_second_run e s a cn sn header user z sp m cb p64 exts :
  server_waits s a cn sn header user z sp -> crypto_ok e -> validates_user e user z ->
  authenticates e a cn sn header user sp m cb p64 exts ->
  exists s', step e s (Some m) [] = (Ok (Finished true), verifier_text e a cn sn user sp cb, s') /\
    s_mech s' = XScramS a (Some SsFinished) /\
    exists c, new_events s s' [EvValidate c] /\ offers_scram c user z.
Proof.
  intros Em Hc Hv Ha.
  set (w := mk_world [] [] (s_trace s) (s_rng s) (s_val s)).
  set (fi := mk_fi cn sn header user z (encode (st_salt sp)) (fmt_u32 (st_iterations sp))
               (st_stored_key sp) (st_server_key sp)).
  set (t := verifier_text e a cn sn user sp cb).
  assert (Ecb : cb = encode header) by (apply decode_canonical, Ha).
  assert (Eh : exists v, handle_client_final e a (Some fi) m (None : option scram_sst) w =
     (Ok tt, None, mk_world t [] (s_trace s ++ [EvValidate (scram_server_provider user z)])
                     (s_rng s) v)).
  { destruct (handle_client_final e a (Some fi) m (None : option scram_sst) w) as [[r l'] w1] eqn:Eh.
    unfold fi in Eh. apply client_final_handled in Eh; [|apply Hc].
    destruct Eh as [[cb' [p64' [exts' [Ha' H]]]]|[Hno _]]; [|exfalso; exact (Hno _ _ _ Ha)].
    assert (cb' = cb) as -> by (rewrite Ecb; apply decode_canonical, Ha').
    unfold send_final in H.
    assert (E1 : write_all_vectored (server_final_slices (SfVerifier (encode (server_signature e a
       (st_server_key sp) (exchange_message user cn sn (encode (st_salt sp))
          (fmt_u32 (st_iterations sp)) cb))))) (None : option scram_sst) w
       = (Ok (length t), None, add_out t w)).
    { rewrite write_all_vectored_full by reflexivity. cbn [server_final_slices concat].
      rewrite app_nil_r. reflexivity. }
    unfold bind at 1 in H. rewrite (bind_step _ _ _ _ _ _ _ E1) in H. unfold ret in H.
    unfold validate in H. cbn [add_out w w_out w_script w_trace w_rng w_val app] in H.
    specialize (Hv (s_trace s) (scram_server_provider user z) (s_val s)
      (scram_provider_offers user z)).
    destruct (run_validate _ _ _) as [rv slot]. cbn [fst] in Hv. subst rv.
    injection H as <- <- <-. exists slot. reflexivity. }
  destruct Eh as [v Eh].
  eexists. split; [|split; [|exists (scram_server_provider user z); split;
    [|apply scram_provider_offers]]].
  - unfold step, run, mech_step. rewrite Em. unfold bind, getl, on. unfold scram_server_step.
    unfold bind at 1, getl. unfold bind at 1, setl. unfold bind. fold w. fold fi. rewrite Eh.
    reflexivity.
  - reflexivity.
  - reflexivity.
Qed.
