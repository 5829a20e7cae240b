(** Consequences of the main SCRAM theorems. *)
From Verif Require Import Bytes Utf8 Types World CallbackSpec Base64 Num OAuth ScramParser Scram
  Session Registry Spec_Simple Spec_OAuth Spec_ScramText Spec_Scram Base64Facts Proof_ScramText
  Proof_Scram Proof_ScramMain Proof_ScramPanic.

Theorem plus_server_binding e s0 a m1 script1 st out1 s1 m2 script2 r out2 s2 :
  s_mech s0 = XScramS a (Some (SsClientFirst true)) -> crypto_ok e -> no_zero script1 ->
  step e s0 (Some m1) script1 = (Ok st, out1, s1) ->
  step e s1 (Some m2) script2 = (r, out2, s2) ->
  vouches s1 s2 out2 ->
  exists evs f two z user cn t data sp,
    new_events s0 s1 evs /\ client_first_fields m1 f two z user cn t /\
    answers PScramStoredPassword evs = [sp] /\
    proven e a f z user cn (nonce_from e (s_rng s0)) out1 m2 data sp /\
    ((exists name, f = CbUsed name /\ cb_source e evs name data) \/
     (f = CbNotSupported /\ data = [])).
Proof.
  intros Em Hc Hz H1 H2 Hv.
  destruct (server_sound _ _ _ _ _ _ _ _ _ _ _ _ _ _ Em Hc Hz H1 H2 Hv)
    as [evs [f [two [z [user [cn [t [data [sp [Hn [_ [Hf [Hy [Hd [Ha [_ [Hp _]]]]]]]]]]]]]]]]].
  exists evs, f, two, z, user, cn, t, data, sp. repeat (split; [assumption|]).
  destruct f; [discriminate (Hy eq_refl)|right; auto|left; eauto].
Qed.

Theorem channel_bound e s0 a plus m1 script1 st out1 s1 m2 script2 r out2 s2
    name two z user cn t :
  s_mech s0 = XScramS a (Some (SsClientFirst plus)) -> crypto_ok e -> no_zero script1 ->
  step e s0 (Some m1) script1 = (Ok st, out1, s1) ->
  step e s1 (Some m2) script2 = (r, out2, s2) ->
  vouches s1 s2 out2 ->
  client_first_fields m1 (CbUsed name) two z user cn t ->
  exists evs data cb nonce rest,
    new_events s0 s1 evs /\ cb_source e evs name data /\
    m2 = final_bare cb nonce ++ rest /\ free ","%char cb /\
    decode cb = Some (gs2_text (CbUsed name) z ++ data).
Proof.
  intros Em Hc Hz H1 H2 Hv Hf.
  destruct (server_sound _ _ _ _ _ _ _ _ _ _ _ _ _ _ Em Hc Hz H1 H2 Hv)
    as [evs [f [two' [z' [user' [cn' [t' [data [sp [Hn [_ [Hf' [_ [Hd [_ [_ [Hp _]]]]]]]]]]]]]]]]].
  pose proof (fields_parse _ _ _ _ _ _ _ Hf) as P1.
  pose proof (fields_parse _ _ _ _ _ _ _ Hf') as P2.
  rewrite P1 in P2. injection P2 as <- <- <- <-.
  destruct Hp as [cb [exts [p64 [P [_ [Hm2 [Hcb [_ [_ [Hdec _]]]]]]]]]].
  exists evs, data, cb, (cn ++ nonce_from e (s_rng s0)), (extensions_text exts ++ lit ",p=" ++ p64).
  repeat (split; [assumption|]). assumption.
Qed.

Theorem client_final_verified e s0 a plus input script1 st1 m1 s1 m2 script2 st2 m3 s2
    m4 script3 r out s3 :
  s_mech s0 = XScramC a (Some (ScInitial plus)) -> no_zero script1 -> no_zero script2 ->
  step e s0 input script1 = (Ok st1, m1, s1) ->
  step e s1 (Some m2) script2 = (Ok st2, m3, s2) ->
  step e s2 (Some m4) script3 = (r, out, s3) ->
  exists header user bare evs salt n ck sk,
    let am := rfc_auth_message (first_bare user (nonce_from e (s_rng s0))) m2 bare in
    m1 = header ++ first_bare user (nonce_from e (s_rng s0)) /\
    new_events s1 s2 evs /\ keys_from e a evs salt n ck sk /\
    m3 = bare ++ lit ",p=" ++ encode (client_proof e a ck am) /\
    (st1 = Running /\ st2 = Running) /\ out = [] /\
    (forall st, r = Ok st -> st = Finished false /\ m4 = lit "v=" ++ encode (e_hmac e a sk am)) /\
    (m4 = lit "v=" ++ encode (e_hmac e a sk am) -> r = Ok (Finished false)) /\
    (forall v, m4 = lit "v=" ++ encode v -> v <> e_hmac e a sk am ->
       r = Err EMutualAuthenticationFailed) /\
    (forall st, r = Ok st -> exists c taken, offers_salt c salt n /\
       Forall (fun ev => ev = EvTaken PScramCachedPassword) taken /\
       new_events s2 s3 (EvAction PScramCachedPassword (mk_cached ck sk) c :: taken)).
Proof.
  intros Em Hz1 Hz2 H1 H2 H3.
  destruct (client_verifies _ _ _ _ _ _ _ _ _ _ _ _ _ _ Em Hz1 Hz2 H1 H2)
    as [hdr [data [user [sn [salt64 [salt [iters [n [evs [ck [sk H]]]]]]]]]]].
  cbv zeta in H. destruct H as [-> [-> [Hm1 [_ [Hn [_ [Hk [Hm3 H]]]]]]]].
  destruct (H _ _ _ _ _ H3) as [Ho Hcase]; clear H.
  exists hdr, user, (final_bare (encode (hdr ++ data)) (nonce_from e (s_rng s0) ++ sn)), evs, salt, n,
    ck, sk. cbv zeta.
  repeat (split; [first [assumption|split; reflexivity]|]).
  destruct Hcase as [[Hm4 [-> [c [taken [Hc [Ht He]]]]]]|[Hm4 [_ [Hr [_ Hw]]]]].
  - split; [intros st E; injection E as <-; split; [reflexivity|exact Hm4]|].
    split; [reflexivity|]. split.
    + intros v Hv Hne. exfalso. apply Hne. rewrite Hm4 in Hv. apply app_inv_head in Hv.
      apply (f_equal decode) in Hv. rewrite !Base64Facts.decode_encode in Hv. congruence.
    + intros; eauto.
  - split; [intros st E; exfalso; exact (Hr st E)|]. split; [intros E; contradiction|].
    split; [intros v Hv _; exact (Hw v Hv)|intros st E; exfalso; exact (Hr st E)].
Qed.

Theorem client_quiet e s a cb nonce user m script r out s' :
  crypto_ok e -> client_waits s a cb nonce user ->
  step e s (Some m) script = (r, out, s') ->
  (forall sn salt64 salt iters n, ~ continues m nonce sn salt64 salt iters n) ->
  out = [] /\ new_events s s' [] /\ s_val s' = s_val s /\
  ((exists x, r = Err x) \/ (r = Panic /\ short_attribute m)).
Proof.
  intros Hc Hw H Hno.
  destruct (client_no_leak _ _ _ _ _ _ _ _ _ _ _ Hw H Hno) as [Ho [Hn [Hv Hr]]].
  repeat (split; [assumption|]).
  destruct r as [st|x|]; [exfalso; exact (Hr st eq_refl)|left; eauto|right; split; [reflexivity|]].
  unfold client_waits in Hw.
  destruct (only_stunted_panics _ _ _ _ _ _ Hc ltac:(rewrite Hw; exact I) H)
    as [[m' [E Hs]]|[a' [st [_ [evs [c [Hn' [Hi _]]]]]]]].
  - injection E as <-. rewrite Hw in Hs. exact Hs.
  - unfold new_events in *. rewrite Hn in Hn'. apply app_inv_head in Hn'. subst evs. destruct Hi.
Qed.

(** What the server has read can be written again. *)
Theorem client_first_rewritten m cf :
  client_first_parse m = Ok cf ->
  client_first_parse (concat (client_first_slices cf)) = Ok cf /\
  exists two t, length two = 2 /\ tail_of_attributes t /\
    m = flag_text (cf_cbflag cf) ++ lit "," ++
        match cf_authzid cf with Some z => two ++ z | None => [] end ++ lit "," ++
        first_bare (cf_username cf) (cf_nonce cf) ++ t /\
    concat (client_first_slices cf) =
        flag_text (cf_cbflag cf) ++ lit "," ++
        match cf_authzid cf with Some z => lit "a=" ++ z | None => [] end ++ lit "," ++
        first_bare (cf_username cf) (cf_nonce cf).
Proof.
  intros H. apply client_first_parse_inv in H.
  destruct H as [two [t [E [Hf [Hz [H2 [Vz [Hu [Vu [Hn Ht]]]]]]]]]].
  assert (S : concat (client_first_slices cf) =
    flag_text (cf_cbflag cf) ++ lit "," ++ authzid_part (lit "a=") (cf_authzid cf) ++ lit "," ++
    first_bare (cf_username cf) (cf_nonce cf) ++ []).
  { unfold client_first_slices, gs2_header_parts, first_bare, authzid_part.
    rewrite !concat_app. destruct cf as [[| |name] [z|] user nonce]; cbn;
      repeat (rewrite <- ?app_assoc, ?app_nil_r; cbn); reflexivity. }
  split.
  - rewrite S. rewrite client_first_parse_text; auto.
    + destruct cf; reflexivity.
    + unfold authzid_part in *. destruct (cf_authzid cf) as [z|]; [|exact Hz].
      intros X. apply Hz. apply in_or_app. right. apply in_app_or in X. destruct X as [X|X]; [|exact X].
      exfalso. cbn in X. intuition discriminate.
    + left. reflexivity.
  - exists two, t. rewrite S, app_nil_r. unfold authzid_part in *. auto.
Qed.
