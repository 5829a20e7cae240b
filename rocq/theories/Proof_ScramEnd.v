(** How whole SCRAM exchanges end. *)
From Coq Require Import Lia.
From Verif Require Import Bytes BytesFacts Utf8 Types World CallbackSpec WorldFacts Base64
  Base64Facts Num NumFacts Simple OAuth ScramParser Scram Gssapi Session
  Spec_Simple Spec_OAuth Spec_ScramText Spec_Scram MonadFacts Frame Proof_Simple Proof_OAuth
  Proof_ScramText Proof_Scram Proof_ScramRun Spec_Wire Proof_Wire Proof_ScramMain
  Proof_ScramErrors.
Open Scope m_scope.

Lemma told_cause e s a sig ck sk salt n x v script :
  client_expects s a sig ck sk salt n -> error_value x v ->
  exists s', step e s (Some (lit "e=" ++ v)) script = (Err (EMech (MScramServerError x)), [], s').
Proof.
  intros W Hx. destruct (client_told e s a sig ck sk salt n v script W) as [y [s' [E [_ [_ H]]]]].
  exists s'. rewrite E. destruct H as [H|[_ H]]; [|exfalso; exact (H _ Hx)].
  apply parse_value in H. apply parse_value in Hx. congruence.
Qed.

Lemma own_proof_value e a ck am : crypto_ok e -> length ck = hlen a ->
  proof_value a (encode (client_proof e a ck am)) (client_proof e a ck am).
Proof.
  intros [_ [Hm _]] Hl.
  assert (L : length (client_proof e a ck am) = hlen a).
  { unfold client_proof. rewrite <- xor_zip_text, xor_zip_length, Hl, Hm. apply Nat.min_id. }
  exists (client_proof e a ck am). rewrite decode_encode, L, Nat.sub_diag. cbn [repeat].
  rewrite app_nil_r. split; [reflexivity|]. split; [lia|reflexivity].
Qed.

Theorem scram_outcomes ec es sc ss a plus splus input f data user uesc z zesc p sp :
  s_mech sc = XScramC a (Some (ScInitial plus)) ->
  s_mech ss = XScramS a (Some (SsClientFirst splus)) ->
  crypto_ok es -> same_crypto ec es ->
  client_can_bind ec plus f data -> server_can_bind es f data ->
  legal_flag f -> (f = CbSupportedNotUsed -> splus = false) ->
  provides ec PAuthId user -> escape user = Ok uesc -> utf8_valid user = true ->
  answers_with ec PAuthzId z -> escaped z zesc -> (forall x, z = Some x -> utf8_valid x = true) ->
  looks_up es uesc zesc (Some sp) -> usable a sp ->
  (1 <= st_iterations sp <= u32_max)%N ->
  gives_keys ec a p (st_salt sp) (st_iterations sp) ->
  validates_user es uesc zesc ->
  let salted := e_pbkdf2 es a p (st_salt sp) (st_iterations sp) in
  let am := exchange_message uesc (nonce_from ec (s_rng sc)) (nonce_from es (s_rng ss))
              (encode (st_salt sp)) (fmt_u32 (st_iterations sp)) (encode (gs2_text f zesc ++ data)) in
  let fits := proves es a (st_stored_key sp) am (client_proof es a (client_key_of es a salted) am) in
  let same := e_hmac es a (st_server_key sp) am = e_hmac es a (server_key_of es a salted) am in
  exists m1 m2 m3 m4 sc1 sc2 r sc3 ss1 ss2 evs,
    step ec sc input [] = (Ok Running, m1, sc1) /\
    step es ss (Some m1) [] = (Ok Running, m2, ss1) /\
    step ec sc1 (Some m2) [] = (Ok Running, m3, sc2) /\
    step es ss1 (Some m3) [] = (Ok (Finished true), m4, ss2) /\
    step ec sc2 (Some m4) [] = (r, [], sc3) /\
    m1 <> [] /\ new_events ss ss2 evs /\
    ((fits /\ (exists c, validations evs = [c] /\ offers_scram c uesc zesc) /\
      (same /\ r = Ok (Finished false) \/ ~ same /\ r = Err EMutualAuthenticationFailed)) \/
     (~ fits /\ validations evs = [] /\ s_val ss2 = s_val ss /\ m4 = lit "e=invalid-proof" /\
      r = Err (EMech (MScramServerError SeInvalidProof)))).
Proof.
  intros Emc Ems Hc Hs Hcb Hsb Hlf Hy Hu Eu Vu Hz Ez Vz Hsp Hus Hit Hk Hval salted am fits same.
  set (cn := nonce_from ec (s_rng sc)) in *. set (sn := nonce_from es (s_rng ss)) in *.
  destruct (client_first_run ec sc a plus input f data user uesc z zesc Emc Hcb Hu Eu Hz Ez)
    as [sc1 [E1 [W1 _]]]. fold cn in E1, W1.
  pose proof (sent_fields f user uesc z zesc cn Eu Vu Ez Vz Hlf (proj1 (nonce_from_legal _ _)))
    as Hfields.
  destruct (server_first_run es ss a splus _ f _ zesc uesc cn [] data (Some sp) Ems Hfields Hy Hsb Hsp)
    as [m2 [ss1 [E2 [Vs1 [Em2 W2]]]]]; [intros x [= <-]; exact Hus|].
  fold sn in Em2, W2.
  assert (Hcc : crypto_ok ec).
  { destruct Hs as [Sh [Sm Sp]], Hc as [Hh [Hm Hp]].
    split; [intros; rewrite Sh; apply Hh|]. split; intros; [rewrite Sm; apply Hm|rewrite Sp; apply Hp]. }
  assert (Hcont : continues m2 cn sn (encode (st_salt sp)) (st_salt sp) (fmt_u32 (st_iterations sp))
                    (st_iterations sp)).
  { rewrite Em2. apply first_continues; [apply nonce_from_free|exact Hit]. }
  destruct (client_second_run ec sc1 a _ cn uesc m2 sn _ _ _ _ p W1 Hcont Hcc Hk)
    as [sc2 [E3 [W3 _]]]. cbv zeta in E3, W3. fold am in E3, W3.
  set (ck := client_key_of es a salted) in *.
  assert (Ec : client_key_of ec a (e_pbkdf2 ec a p (st_salt sp) (st_iterations sp)) = ck).
  { destruct Hs as [Sh [Sm Sp]]. unfold ck, salted, client_key_of. rewrite Sm, Sp. reflexivity. }
  assert (Esig : server_signature ec a (server_key_of ec a (e_pbkdf2 ec a p (st_salt sp) (st_iterations sp))) am
                 = e_hmac es a (server_key_of es a salted) am).
  { destruct Hs as [Sh [Sm Sp]]. unfold server_signature, salted, server_key_of. rewrite !Sm, Sp. reflexivity. }
  assert (Epr : client_proof ec a ck am = client_proof es a ck am).
  { destruct Hs as [Sh [Sm Sp]]. unfold client_proof. rewrite Sm, Sh. reflexivity. }
  rewrite Ec, Epr in E3. rewrite Esig in W3.
  assert (Hl : length ck = hlen a) by apply Hc.
  destruct (server_first_any _ _ _ _ _ _ _ _ _ Ems E2)
    as [evs [f' [two' [z' [user' [cn' [t' [data' [_ [N2 [V2 _]]]]]]]]]]].
  assert (M1 : gs2_text f zesc ++ first_bare uesc cn <> []).
  { destruct f; discriminate. }
  set (cb := encode (gs2_text f zesc ++ data)) in *.
  set (m3 := final_bare cb (cn ++ sn) ++ lit ",p=" ++ encode (client_proof es a ck am)) in *.
  assert (F3 : final_fields m3 cb (cn ++ sn) (encode (client_proof es a ck am)) []).
  { split; [reflexivity|]. split; [apply encode_no; reflexivity|].
    split; [apply free_app; apply nonce_from_free|]. split; [apply encode_no; reflexivity|constructor]. }
  assert (D : fits \/ ~ fits).
  { unfold fits, proves. match goal with |- ?x = ?y \/ _ => destruct (list_eq_dec Ascii.ascii_dec x y) end; auto. }
  destruct D as [Hf|Hf].
  - assert (Hauth : authenticates es a cn sn (gs2_text f zesc ++ data) uesc sp m3 cb
                      (encode (client_proof es a ck am)) []).
    { destruct F3 as [K1 [K2 [K3 [K4 K5]]]]. repeat (split; [assumption|]).
      split; [apply decode_encode|]. exists (client_proof es a ck am).
      split; [apply own_proof_value; assumption|exact Hf]. }
    destruct (server_second_run es ss1 a cn sn _ uesc zesc sp _ _ _ _ W2 Hc Hval Hauth)
      as [ss2 [E4 [_ [c [N4 O4]]]]].
    match type of E4 with _ = (_, ?v, _) => set (m4 := v) in * end.
    assert (Em4 : m4 = lit "v=" ++ encode (e_hmac es a (st_server_key sp) am)) by reflexivity.
    destruct (step ec sc2 (Some m4) []) as [[r5 o5] sc3] eqn:E5.
    exists (gs2_text f zesc ++ first_bare uesc cn), m2, m3, m4, sc1, sc2, r5, sc3, ss1, ss2,
      (evs ++ [EvValidate c]).
    destruct (client_third _ _ _ _ _ _ _ _ _ _ _ _ _ W3 E5) as [Ho5 H5]. subst o5.
    repeat (split; [assumption|]). split.
    { unfold new_events in *. rewrite N4, N2, app_assoc. reflexivity. }
    left. split; [exact Hf|]. split.
    { exists c. split; [rewrite validations_app, V2; reflexivity|exact O4]. }
    destruct H5 as [_ [[Heq [Hr5 _]]|[Hne [_ [_ [_ Hm]]]]]].
    + left. split; [|exact Hr5]. rewrite Em4 in Heq. apply app_inv_head in Heq.
      apply (f_equal decode) in Heq. rewrite !decode_encode in Heq. injection Heq as Heq. exact Heq.
    + right. split; [|apply (Hm _ Em4)]. intros Hs'. apply Hne. rewrite Em4. unfold same in Hs'.
      rewrite Hs'. reflexivity.
  - assert (H4 : reports ss1 (step es ss1 (Some m3) []) (lit "invalid-proof")).
    { apply (proof_wrong es ss1 a cn sn _ uesc zesc sp m3 cb _ [] (client_proof es a ck am) W2 Hc F3
        (decode_encode _) (own_proof_value es a ck am Hc Hl) Hf). }
    destruct (step es ss1 (Some m3) []) as [[r4 m4] ss2] eqn:E4.
    unfold reports in H4. destruct H4 as [-> [-> [N4 V4]]].
    destruct (told_cause ec sc2 _ _ _ _ _ _ _ _ [] W3 ev_proof) as [sc3 E5].
    exists (gs2_text f zesc ++ first_bare uesc cn), m2, m3, (lit "e=invalid-proof"), sc1, sc2,
      (Err (EMech (MScramServerError SeInvalidProof))), sc3, ss1, ss2, evs.
    repeat (split; [assumption|]). split.
    { unfold new_events in *. rewrite N4, app_nil_r. exact N2. }
    right. split; [exact Hf|]. split; [exact V2|]. split; [congruence|]. split; reflexivity.
Qed.

Theorem scram_unknown ec es sc ss a plus splus input f data user uesc z zesc p :
  s_mech sc = XScramC a (Some (ScInitial plus)) ->
  s_mech ss = XScramS a (Some (SsClientFirst splus)) ->
  crypto_ok ec ->
  client_can_bind ec plus f data -> server_can_bind es f data ->
  legal_flag f -> (f = CbSupportedNotUsed -> splus = false) ->
  provides ec PAuthId user -> escape user = Ok uesc -> utf8_valid user = true ->
  answers_with ec PAuthzId z -> escaped z zesc -> (forall x, z = Some x -> utf8_valid x = true) ->
  looks_up es uesc zesc None ->
  gives_keys ec a p (dummy_salt es (24 + s_rng ss)) 16384 ->
  exists m1 m2 m3 sc1 sc2 sc3 ss1 ss2 evs,
    step ec sc input [] = (Ok Running, m1, sc1) /\
    step es ss (Some m1) [] = (Ok Running, m2, ss1) /\
    step ec sc1 (Some m2) [] = (Ok Running, m3, sc2) /\
    step es ss1 (Some m3) [] = (Ok (Finished true), lit "e=unknown-user", ss2) /\
    step ec sc2 (Some (lit "e=unknown-user")) []
      = (Err (EMech (MScramServerError SeUnknownUser)), [], sc3) /\
    m1 <> [] /\ new_events ss ss2 evs /\ validations evs = [] /\ s_val ss2 = s_val ss.
Proof.
  intros Emc Ems Hcc Hcb Hsb Hlf Hy Hu Eu Vu Hz Ez Vz Hsp Hk.
  set (cn := nonce_from ec (s_rng sc)) in *. set (sn := nonce_from es (s_rng ss)) in *.
  destruct (client_first_run ec sc a plus input f data user uesc z zesc Emc Hcb Hu Eu Hz Ez)
    as [sc1 [E1 [W1 _]]]. fold cn in E1, W1.
  pose proof (sent_fields f user uesc z zesc cn Eu Vu Ez Vz Hlf (proj1 (nonce_from_legal _ _)))
    as Hfields.
  destruct (server_first_run es ss a splus _ f _ zesc uesc cn [] data None Ems Hfields Hy Hsb Hsp)
    as [m2 [ss1 [E2 [Vs1 [[salt [Hsalt Em2]] W2]]]]]; [discriminate|].
  fold sn in Em2. subst salt.
  assert (Hcont : continues m2 cn sn (encode (dummy_salt es (24 + s_rng ss)))
                    (dummy_salt es (24 + s_rng ss)) (lit "16384") 16384).
  { rewrite Em2. apply default_continues, nonce_from_free. }
  destruct (client_second_run ec sc1 a _ cn uesc m2 sn _ _ _ _ p W1 Hcont Hcc Hk)
    as [sc2 [E3 [W3 _]]]. cbv zeta in E3, W3.
  match type of E3 with _ = (_, ?v, _) => set (m3 := v) in * end.
  destruct (server_first_any _ _ _ _ _ _ _ _ _ Ems E2)
    as [evs [f' [two' [z' [user' [cn' [t' [data' [_ [N2 [V2 _]]]]]]]]]]].
  assert (H4 : reports ss1 (step es ss1 (Some m3) []) (lit "unknown-user")).
  { eapply (unknown_reports _ _ _ _ _ _ _ []); [exact W2|]. split; [reflexivity|]. split; [apply encode_no; reflexivity|].
    split; [apply free_app; apply nonce_from_free|]. split; [apply encode_no; reflexivity|constructor]. }
  destruct (step es ss1 (Some m3) []) as [[r4 m4] ss2] eqn:E4.
    unfold reports in H4. destruct H4 as [-> [-> [N4 V4]]].
  destruct (told_cause ec sc2 _ _ _ _ _ _ _ _ [] W3 ev_user) as [sc3 E5].
  exists (gs2_text f zesc ++ first_bare uesc cn), m2, m3, sc1, sc2, sc3, ss1, ss2, evs.
  repeat (split; [assumption|]). split; [destruct f; discriminate|]. split.
  { unfold new_events in *. rewrite N4, app_nil_r. exact N2. }
  split; [exact V2|congruence].
Qed.
