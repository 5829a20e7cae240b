(** Which errors a SCRAM server reports, and what a client makes of them (C62, C63). *)
From Coq Require Import Lia Arith.
From Verif Require Import Bytes Utf8 Types World CallbackSpec Base64 Num Simple OAuth ScramParser
  Scram Gssapi Session Registry Spec_Basic Spec_Wire Spec_Registry Spec_Simple Spec_OAuth
  Spec_ScramText Spec_Scram
  BytesFacts NumFacts Base64Facts MonadFacts WorldFacts Proof_Wire Proof_ScramText Proof_Scram
  Proof_ScramRun Proof_ScramMain.

(** What the server does after parsing. *)
Definition final_act (e : env) (a : alg) (cn sn header user : bytes) (z : option bytes)
    (sp : stored) (cb fn p64 : bytes) : M (option scram_sst) unit :=
  match decode cb with
  | None => scram_proto PrBase64Decode
  | Some b =>
      if negb (bytes_eqb header b)
      then send_final (SfError SeChannelBindingsDontMatch)
      else
        match strip_prefix cn fn with
        | None => send_final (SfError SeInvalidProof)
        | Some remainder =>
            if bytes_eqb remainder sn && Nat.leb (length p64) (hlen a * 4 / 3 + 3)
            then
              match decode_slice p64 (hlen a) with
              | None => scram_proto PrBase64Decode
              | Some proof =>
                  let sigs := compute_signatures e a (st_stored_key sp) (st_server_key sp)
                                user cn sn (encode (st_salt sp)) (fmt_u32 (st_iterations sp)) cb in
                  client_key <- exact a (xor_zip proof (fst sigs)) ;;
                  if bytes_eqb (st_stored_key sp) (e_hash e a client_key) then
                    send_final (SfVerifier (encode (snd sigs))) ;;;
                    validate e (scram_server_provider user z)
                  else send_final (SfError SeInvalidProof)
              end
            else send_final (SfError SeInvalidProof)
        end
  end.

Definition start (s : session) : world := mk_world [] [] (s_trace s) (s_rng s) (s_val s).

Lemma final_result e s a cn sn header user z sp m cb fn p64 exts r1 l1 w' :
  server_waits s a cn sn header user z sp -> final_fields m cb fn p64 exts ->
  final_act e a cn sn header user z sp cb fn p64 None (start s) = (r1, l1, w') ->
  exists s', step e s (Some m) [] =
    (match r1 with Ok _ => Ok (Finished true) | Err x => Err x | Panic => Panic end, w_out w', s') /\
    s_trace s' = w_trace w' /\ s_val s' = w_val w'.
Proof.
  intros W [Em [F1 [F2 [F3 F4]]]] Hf.
  destruct (step e s (Some m) []) as [[r out] s'] eqn:H.
  pose proof H as H1. apply (step_scram_server _ _ _ _ _ _ _ _ _ W) in H1.
  destruct H1 as [st1 [w2 [H1 [-> ->]]]]. apply server_step2 in H1.
  destruct H1 as [r2 [l2 [H1 Hr]]].
  assert (Ep : client_final_parse m = Ok (mk_cl cb fn p64))
    by (apply client_final_parse_exact; eauto 10).
  unfold handle_client_final in H1. unfold bind at 1, scram_parse at 1, of_res in H1.
  rewrite Ep in H1. cbn [rmap_err] in H1.
  change (final_act e a cn sn header user z sp cb fn p64 None (start s) = (r2, l2, w2)) in H1.
  rewrite Hf in H1. injection H1 as <- <- <-.
  exists (mk_session (XScramS a st1) (w_trace w') (w_rng w') (w_val w')).
  split; [|split; reflexivity].
  destruct Hr as [[-> [-> _]]|[[x [-> [-> _]]]|[-> [-> _]]]]; reflexivity.
Qed.

Lemma final_sent e s a cn sn header user z sp m cb fn p64 exts x :
  server_waits s a cn sn header user z sp -> final_fields m cb fn p64 exts ->
  final_act e a cn sn header user z sp cb fn p64 None (start s)
  = send_final (SfError x) None (start s) ->
  reports s (step e s (Some m) []) (srverr_bytes x).
Proof.
  intros W F E. destruct (send_final (SfError x) None (start s)) as [[r1 l1] w'] eqn:Hf.
  destruct (final_result _ _ _ _ _ _ _ _ _ _ _ _ _ _ _ _ _ W F E) as [s' [-> [Ht Hv]]].
  destruct (succeeds_vectored (server_final_slices (SfError x)) (None : option scram_sst) (start s) eq_refl)
    as [w2 [evs2 [E2 _]]].
  pose proof Hf as Hf'. unfold send_final in Hf'. rewrite (bind_step _ _ _ _ _ _ _ E2) in Hf'.
  injection Hf' as <- _ _.
  apply send_final_any in Hf. destruct Hf as [_ [p [q [Ep [Hw Hq]]]]].
  destruct Hq as [[_ Hq]|[y Hq]]; [|discriminate]. rewrite Hq, app_nil_r in Ep by constructor.
  cbn [server_final_slices concat] in Ep. rewrite app_nil_r in Ep. subst p.
  unfold reports, new_events. rewrite app_nil_r, Ht, Hv.
  destruct Hw as [-> Hw]. cbn [start w_out w_trace w_val app] in *.
  split; [reflexivity|]. split; [reflexivity|]. split; apply Hw.
Qed.
Lemma final_silent e s a cn sn header user z sp m cb fn p64 exts :
  server_waits s a cn sn header user z sp -> final_fields m cb fn p64 exts ->
  final_act e a cn sn header user z sp cb fn p64 None (start s)
  = scram_proto PrBase64Decode None (start s) ->
  rejects_base64 s (step e s (Some m) []).
Proof.
  intros W F E. unfold scram_proto, fail in E.
  destruct (final_result _ _ _ _ _ _ _ _ _ _ _ _ _ _ _ _ _ W F E) as [s' [-> [Ht Hv]]].
  cbn [start w_out w_trace w_val] in *. unfold rejects_base64, new_events. rewrite app_nil_r. auto.
Qed.

Lemma neqb (x y : bytes) : x <> y -> bytes_eqb x y = false.
Proof.
  intros N. destruct (bytes_eqb x y) eqn:E; [|reflexivity]. apply bytes_eqb_eq in E. contradiction.
Qed.
Lemma eqb_same (x : bytes) : bytes_eqb x x = true.
Proof. apply bytes_eqb_eq. reflexivity. Qed.

Theorem binding_undecodable e s a cn sn header user z sp m cb fn p64 exts :
  server_waits s a cn sn header user z sp -> final_fields m cb fn p64 exts ->
  decode cb = None -> rejects_base64 s (step e s (Some m) []).
Proof.
  intros W F E. eapply final_silent; eauto. unfold final_act. rewrite E. reflexivity.
Qed.
Theorem binding_wrong e s a cn sn header user z sp m cb fn p64 exts b :
  server_waits s a cn sn header user z sp -> final_fields m cb fn p64 exts ->
  decode cb = Some b -> b <> header ->
  reports s (step e s (Some m) []) (lit "channel-bindings-dont-match").
Proof.
  intros W F E N. eapply (final_sent _ _ _ _ _ _ _ _ _ _ _ _ _ _ SeChannelBindingsDontMatch); eauto.
  unfold final_act. rewrite E, neqb by congruence. reflexivity.
Qed.
Theorem nonce_wrong e s a cn sn header user z sp m cb fn p64 exts :
  server_waits s a cn sn header user z sp -> final_fields m cb fn p64 exts ->
  decode cb = Some header -> fn <> cn ++ sn ->
  reports s (step e s (Some m) []) (lit "invalid-proof").
Proof.
  intros W F E N. eapply (final_sent _ _ _ _ _ _ _ _ _ _ _ _ _ _ SeInvalidProof); eauto.
  unfold final_act. rewrite E, eqb_same. cbn [negb].
  destruct (strip_prefix cn fn) as [t|] eqn:Es; [|reflexivity].
  apply strip_prefix_iff in Es. rewrite neqb; [reflexivity|]. intros ->. contradiction.
Qed.
Theorem proof_undecodable e s a cn sn header user z sp m cb p64 exts :
  server_waits s a cn sn header user z sp -> final_fields m cb (cn ++ sn) p64 exts ->
  decode cb = Some header -> (forall P, ~ proof_value a p64 P) ->
  if Nat.leb (length p64) (hlen a * 4 / 3 + 3) then rejects_base64 s (step e s (Some m) [])
  else reports s (step e s (Some m) []) (lit "invalid-proof").
Proof.
  intros W F E HP. destruct (Nat.leb _ _) eqn:El.
  - eapply final_silent; eauto. unfold final_act. rewrite E, eqb_same. cbn [negb].
    rewrite strip_prefix_app, eqb_same, El. cbn [andb].
    destruct (decode_slice p64 (hlen a)) as [P|] eqn:Ed; [|reflexivity].
    apply decode_slice_some in Ed. exfalso. exact (HP P Ed).
  - eapply (final_sent _ _ _ _ _ _ _ _ _ _ _ _ _ _ SeInvalidProof); eauto.
    unfold final_act. rewrite E, eqb_same. cbn [negb].
    rewrite strip_prefix_app, eqb_same, El. reflexivity.
Qed.
Theorem proof_wrong e s a cn sn header user z sp m cb p64 exts P :
  server_waits s a cn sn header user z sp -> crypto_ok e ->
  final_fields m cb (cn ++ sn) p64 exts ->
  decode cb = Some header -> proof_value a p64 P ->
  ~ proves e a (st_stored_key sp)
      (exchange_message user cn sn (encode (st_salt sp)) (fmt_u32 (st_iterations sp)) cb) P ->
  reports s (step e s (Some m) []) (lit "invalid-proof").
Proof.
  intros W C F E HP Hno. pose proof (proof_value_fits _ _ _ HP) as El. apply Nat.leb_le in El.
  assert (Ed : decode_slice p64 (hlen a) = Some P) by (apply decode_slice_some; exact HP).
  eapply (final_sent _ _ _ _ _ _ _ _ _ _ _ _ _ _ SeInvalidProof); eauto.
  unfold final_act. rewrite E, eqb_same. cbn [negb].
  rewrite strip_prefix_app, eqb_same, El. cbn [andb]. rewrite Ed.
  unfold compute_signatures. cbn [fst snd]. rewrite auth_message_rfc.
  fold (exchange_message user cn sn (encode (st_salt sp)) (fmt_u32 (st_iterations sp)) cb).
  destruct C as [Hh [Hcr _]].
  rewrite (bind_step _ _ _ _ _ _ _ (exact_ok a _ None (start s)
    (eq_trans (xor_zip_length P _) (eq_trans (f_equal2 Nat.min (proof_value_length _ _ _ HP)
      (Hcr _ _ _)) (Nat.min_id _))))).
  rewrite neqb; [reflexivity|]. intros Eq. apply Hno. unfold proves. rewrite <- xor_zip_text.
  symmetry. exact Eq.
Qed.

Theorem unknown_reports e s a m cb fn p64 exts :
  server_pretends s a -> final_fields m cb fn p64 exts ->
  reports s (step e s (Some m) []) (lit "unknown-user").
Proof.
  intros W [Em [F1 [F2 [F3 F4]]]].
  destruct (step e s (Some m) []) as [[r out] s'] eqn:H.
  destruct (server_second_unknown _ _ _ _ _ _ _ _ W H) as [He [Hv [_ Hok]]].
  assert (Hr : r = Ok (Finished true)).
  { apply (step_scram_server _ _ _ _ _ _ _ _ _ W) in H.
    destruct H as [st1 [w2 [H1 [-> ->]]]]. apply server_step2 in H1.
    destruct H1 as [r2 [l2 [H1 Hr]]].
    assert (Ep : client_final_parse m = Ok (mk_cl cb fn p64))
      by (apply client_final_parse_exact; eauto 10).
    unfold handle_client_final in H1. unfold bind at 1, scram_parse at 1, of_res in H1.
    rewrite Ep in H1. cbn [rmap_err] in H1.
    destruct (succeeds_vectored (server_final_slices (SfError SeUnknownUser))
      (None : option scram_sst) (start s) eq_refl) as [w3 [evs3 [E3 _]]].
    fold (start s) in H1. unfold send_final in H1. rewrite (bind_step _ _ _ _ _ _ _ E3) in H1.
    injection H1 as <- <- <-.
    destruct Hr as [[_ [-> _]]|[[x [? _]]|[? _]]]; [reflexivity|discriminate|discriminate]. }
  destruct (Hok _ Hr) as [_ [_ [Ho _]]]. unfold reports.
  split; [exact Hr|]. split; [apply Ho; constructor|]. auto.
Qed.

(** What a client without the right proof sees tells whether the user exists. *)
Theorem known_not_unknown e s a cn sn header user z sp m r out s' :
  server_waits s a cn sn header user z sp -> crypto_ok e ->
  step e s (Some m) [] = (r, out, s') -> out <> lit "e=unknown-user".
Proof.
  intros W C H ->. pose proof (step_scram_server _ _ _ _ _ _ _ _ _ W H) as Hs.
  destruct Hs as [st1 [w2 [H1 [Ho ->]]]]. apply server_step2 in H1.
  destruct H1 as [r2 [l2 [H1 Hr]]]. unfold handle_client_final in H1.
  unfold bind at 1, scram_parse at 1, of_res in H1.
  destruct (client_final_parse m) as [[cb fn p64]|x|] eqn:Ep; cbn [rmap_err] in H1;
    [|injection H1 as <- <- <-; discriminate|injection H1 as <- <- <-; discriminate].
  apply client_final_parse_exact in Ep. destruct Ep as [exts Ep].
  assert (F : final_fields m cb fn p64 exts) by exact Ep.
  assert (Hrep : forall v, reports s (step e s (Some m) []) v -> v = lit "unknown-user").
  { intros v Hv. rewrite H in Hv. destruct Hv as [_ [E _]]. injection E as <-. reflexivity. }
  assert (Hrej : ~ rejects_base64 s (step e s (Some m) [])).
  { rewrite H. intros [_ [E _]]. discriminate. }
  destruct (decode cb) as [b|] eqn:Ecb; [|exact (Hrej (binding_undecodable _ _ _ _ _ _ _ _ _ _ _ _ _ _ W F Ecb))].
  destruct (list_eq_dec Ascii.ascii_dec b header) as [->|Nb].
  2: discriminate (Hrep _ (binding_wrong _ _ _ _ _ _ _ _ _ _ _ _ _ _ _ W F Ecb Nb)).
  destruct (list_eq_dec Ascii.ascii_dec fn (cn ++ sn)) as [->|Nn].
  2: discriminate (Hrep _ (nonce_wrong _ _ _ _ _ _ _ _ _ _ _ _ _ _ W F Ecb Nn)).
  destruct (server_second _ _ _ _ _ _ _ _ _ _ _ _ _ _ W C H) as [Hs|[Hno _]].
  { destruct Hs as [cb' [p' [exts' [rest [_ [E _]]]]]]. discriminate. }
  destruct (decode_slice p64 (hlen a)) as [P|] eqn:Ed.
  - assert (HP : proof_value a p64 P) by (apply decode_slice_some; exact Ed).
    assert (Np : ~ proves e a (st_stored_key sp)
      (exchange_message user cn sn (encode (st_salt sp)) (fmt_u32 (st_iterations sp)) cb) P).
    { intros Hp. destruct F as [F0 [F1 [F2 [F3 F4]]]]. apply (Hno cb p64 exts).
      split; [exact F0|]. repeat (split; [assumption|]). exists P. auto. }
    discriminate (Hrep _ (proof_wrong _ _ _ _ _ _ _ _ _ _ _ _ _ _ W C F Ecb HP Np)).
  - assert (HP : forall P, ~ proof_value a p64 P).
    { intros P HP. apply decode_slice_some in HP. congruence. }
    pose proof (proof_undecodable e _ _ _ _ _ _ _ _ _ _ _ _ W F Ecb HP) as G.
    destruct (Nat.leb _ _); [exact (Hrej G)|discriminate (Hrep _ G)].
Qed.

Theorem first_could_be_known e1 e2 s a plus m f two z user cn t data sp :
  s_mech s = XScramS a (Some (SsClientFirst plus)) ->
  client_first_fields m f two z user cn t ->
  (f = CbSupportedNotUsed -> plus = false) ->
  server_can_bind e1 f data -> server_can_bind e2 f data ->
  (forall n, e_rng e2 n = e_rng e1 n) ->
  looks_up e1 user z None -> looks_up e2 user z (Some sp) -> usable a sp ->
  st_salt sp = dummy_salt e1 (24 + s_rng s) -> st_iterations sp = 16384%N ->
  exists out s1 s2, step e1 s (Some m) [] = (Ok Running, out, s1) /\
    step e2 s (Some m) [] = (Ok Running, out, s2).
Proof.
  intros Em Hf Hy Hb1 Hb2 Hr Hw Ha Hu Es Ei.
  destruct (server_first_run e1 s a plus m f two z user cn t data None Em Hf Hy Hb1 Hw)
    as [o1 [s1 [E1 [_ [[salt [-> Ho1]] _]]]]]; [discriminate|].
  destruct (server_first_run e2 s a plus m f two z user cn t data (Some sp) Em Hf Hy Hb2 Ha)
    as [o2 [s2 [E2 [_ [Ho2 _]]]]]; [intros ? [= <-]; exact Hu|].
  assert (En : nonce_from e2 (s_rng s) = nonce_from e1 (s_rng s)).
  { unfold nonce_from. apply map_ext. intros k. rewrite Hr. reflexivity. }
  exists o1, s1, s2. split; [exact E1|]. rewrite E2, Ho1, Ho2, En, Es, Ei. reflexivity.
Qed.

Lemma parse_value x v : error_value x v -> srverr_parse v = x.
Proof. intros []; reflexivity. Qed.
Lemma parse_unlisted v : (forall x, ~ error_value x v) -> srverr_parse v = SeOtherError.
Proof.
  intros H. unfold srverr_parse. destruct (find _ _) as [x|] eqn:E; [|reflexivity].
  apply find_some in E. destruct E as [_ E]. apply bytes_eqb_eq in E. exfalso. apply (H x).
  apply error_values. exact E.
Qed.

Theorem client_told e s a sig ck sk salt n v script :
  client_expects s a sig ck sk salt n ->
  exists x s', step e s (Some (lit "e=" ++ v)) script = (Err (EMech (MScramServerError x)), [], s') /\
    new_events s s' [] /\ s_val s' = s_val s /\
    (error_value x v \/ (x = SeOtherError /\ forall y, ~ error_value y v)).
Proof.
  intros Em. destruct (step e s (Some (lit "e=" ++ v)) script) as [[r out] s'] eqn:H.
  exists (srverr_parse v), s'.
  apply (step_scram_client _ _ _ _ _ _ _ _ _ Em) in H.
  destruct H as [st1 [w' [H [-> ->]]]]. apply client_step3 in H.
  destruct H as [r1 [H Hr]]. injection H as <- <- <-.
  destruct Hr as [[? _]|[[x [[= <-] ->]]|[? _]]]; try discriminate.
  split; [reflexivity|]. unfold new_events. rewrite app_nil_r. split; [reflexivity|].
  split; [reflexivity|].
  destruct (list_eq_dec Ascii.ascii_dec v (srverr_bytes (srverr_parse v))) as [E|N].
  - left. apply error_values. exact E.
  - assert (Hn : forall x, ~ error_value x v).
    { intros x Hx. apply N. rewrite (parse_value _ _ Hx). apply error_values. exact Hx. }
    right. split; [apply parse_unlisted; exact Hn|exact Hn].
Qed.

(** * Keys of the wrong length (C65) *)

Theorem unusable_refused e s a plus m f two z user cn t data sp script :
  s_mech s = XScramS a (Some (SsClientFirst plus)) ->
  client_first_fields m f two z user cn t ->
  (f = CbSupportedNotUsed -> plus = false) -> server_can_bind e f data ->
  looks_up e user z (Some sp) -> ~ usable a sp ->
  exists s', step e s (Some m) script = (Err (EMech MScramPasswordHashInvalid), [], s') /\
    s_mech s' = XScramS a None /\ s_rng s' = s_rng s /\ s_val s' = s_val s.
Proof.
  intros Em Hf Hy Hb Hp Hu.
  set (w := mk_world [] script (s_trace s) (s_rng s) (s_val s)).
  pose proof (fields_parse _ _ _ _ _ _ _ Hf) as Hpa.
  set (cf := mk_cf f z user cn) in *.
  set (prov := scram_server_provider user z).
  assert (Hb' : succeeds (hcf_bind e plus cf prov) (gs2_text f z) w tt (gs2_text f z ++ data) [] 0).
  { unfold hcf_bind, cf. cbn [cf_cbflag]. destruct f as [| |name]; cbn in Hb.
    - rewrite (Hy eq_refl). subst data. rewrite app_nil_r. apply succeeds_pure. reflexivity.
    - subst data. rewrite app_nil_r. apply succeeds_pure. reflexivity.
    - apply need_cb_some with (d := data); [exact Hb|]. intros; reflexivity. }
  destruct Hb' as [w1 [ev1 [E1 D1]]].
  destruct (looked_up e user z sp (stored_consumer a) (gs2_text f z ++ data) w1 Hp) as [cs [_ E2]].
  fold prov in E2.
  unfold stored_consumer at 2 in E2.
  replace (Nat.eqb (length (st_stored_key sp)) (hlen a) && Nat.eqb (length (st_server_key sp)) (hlen a))
    with false in E2.
  2:{ symmetry. apply not_true_is_false. intros H. apply Hu. apply andb_prop in H.
      destruct H as [H1 H2]. split; apply Nat.eqb_eq; assumption. }
  set (w2 := add_events _ w1) in E2. cbn [fail polite_result] in E2.
  assert (E : handle_client_first e a plus m [] w
              = (Err (EMech MScramPasswordHashInvalid), gs2_text f z ++ data, w2)).
  { rewrite handle_client_first_eq, Hpa.
    assert (E0 : scram_parse (Ok cf) ([] : bytes) w = (Ok cf, [], w)) by reflexivity.
    rewrite (bind_step _ _ _ _ _ _ _ E0).
    assert (E0' : setl (build_gs2_header cf) ([] : bytes) w = (Ok tt, gs2_text f z, w))
      by (rewrite build_header; reflexivity).
    rewrite (bind_step _ _ _ _ _ _ _ E0'). cbv zeta. cbn [cf cf_username cf_authzid].
    fold prov. fold cf. rewrite (bind_step _ _ _ _ _ _ _ E1).
    unfold bind at 1. rewrite E2. reflexivity. }
  destruct D1 as [_ [O [R [V _]]]]. cbn [w w_out w_rng w_val app Nat.add] in O, R, V.
  exists (mk_session (XScramS a None) (w_trace w2) (w_rng w2) (w_val w2)).
  split.
  - unfold step, run, mech_step. rewrite Em. unfold bind, getl, on. unfold scram_server_step.
    unfold bind at 1, getl. unfold bind at 1, setl. unfold bind, locally. fold w. rewrite E.
    cbn [w2 add_events w_out]. rewrite O. reflexivity.
  - split; [reflexivity|]. split; [exact R|exact V].
Qed.

Theorem cached_panics e s a cb nonce user m sn salt64 salt iters n c script :
  client_waits s a cb nonce user -> continues m nonce sn salt64 salt iters n ->
  @provides e PScramCachedPassword c -> ~ fitting a c ->
  exists s', step e s (Some m) script = (Panic, [], s').
Proof.
  intros Em Hm Hp Hu.
  set (w := mk_world [] script (s_trace s) (s_rng s) (s_val s)).
  destruct (handle_server_first e a (mk_wsf cb nonce user) m (None : option scram_cst) w)
    as [[r l'] w1] eqn:Eh.
  assert (K : r = Panic /\ w_out w1 = []).
  { destruct (server_first_handled _ _ _ _ _ _ _ _ _ _ _ Eh) as [[Hno _]|H].
    - exfalso. exact (Hno _ _ _ _ _ Hm).
    - destruct H as [sn' [salt64' [salt' [iters' [n' [_ H]]]]]]. unfold hsf_answer in H.
      unfold bind at 1 in H. unfold client_keys in H. cbv zeta in H. unfold bind at 1 in H.
      match type of H with context [maybe_need_with e PScramCachedPassword ?c0 ?f ?l0 ?w0] =>
        destruct (maybe_need_with_provides e PScramCachedPassword c c0 f l0 w0 Hp) as [cs [_ E2]];
        rewrite E2 in H end.
      replace (Nat.eqb (length (ca_client_key c)) (hlen a) && Nat.eqb (length (ca_server_key c)) (hlen a))
        with false in H.
      2:{ symmetry. apply not_true_is_false. intros H2. apply Hu. apply andb_prop in H2.
          destruct H2 as [H1 H2]. split; apply Nat.eqb_eq; assumption. }
      cbn in H. injection H as <- <- <-. split; reflexivity. }
  destruct K as [-> O].
  exists (mk_session (XScramC a l') (w_trace w1) (w_rng w1) (w_val w1)).
  unfold step, run, mech_step. rewrite Em. unfold bind, getl, on. unfold scram_client_step.
  unfold bind at 1, getl. unfold bind at 1, setl. unfold bind. fold w. rewrite Eh.
  cbn. rewrite O. reflexivity.
Qed.
