(** Lemmas for C89. *)
From Coq Require Import Lia.
From Verif Require Import Bytes BytesFacts Utf8 Types World CallbackSpec WorldFacts MonadFacts Base64 OAuth ScramParser Scram Session
  Registry ChannelBindings Spec_Simple Spec_OAuth Spec_ScramText Spec_Scram Spec_Agree
  Proof_Callback Proof_ScramText Proof_Scram Proof_ScramMain Proof_ScramProps Proof_Agree.

Lemma this_cb_some n d name x : this_cb n d name = Some x <-> name = n /\ x = d.
Proof.
  unfold this_cb. destruct (bytes_eqb n name) eqn:E.
  - apply bytes_eqb_eq in E. subst. split; [intros [= <-]; auto|intros [_ ->]; reflexivity].
  - split; [discriminate|]. intros [-> _]. rewrite bytes_eqb_refl in E. discriminate.
Qed.

(** A flag that both ends have is bound to the same channel at both. *)
Lemma bound_alike ec es evs1 evs plus splus f data : flag_for plus f -> client_flag_data ec evs1 f data ->
  (f = CbSupportedNotUsed -> splus = false) -> flag_data es evs f data ->
  match plus with
  | Supported => exists name data, client_binding ec evs1 name data /\ cb_source es evs name data
  | ServerNoSupport => splus = false
  | ClientNoSupport => True
  end.
Proof.
  intros F C Y D. destruct plus; [exact I|exact (Y F)|]. destruct F as [name ->]. exists name, data. auto.
Qed.

Theorem client_same_channel ec es sc ss a plus splus input script1 st1 m1 sc1 evs1 m2' script2 st2 m3 sc2
    m1' sscript1 sst m2 ss1 m3' sscript2 r m4 ss2 script3 st out sc3 :
  s_mech sc = XScramC a (Some (ScInitial plus)) -> polite ec -> no_zero script1 -> no_zero script2 ->
  step ec sc input script1 = (Ok st1, m1, sc1) -> new_events sc sc1 evs1 -> text_answers evs1 ->
  step ec sc1 (Some m2') script2 = (Ok st2, m3, sc2) ->
  s_mech ss = XScramS a (Some (SsClientFirst splus)) -> no_zero sscript1 ->
  crypto_ok es -> same_crypto ec es ->
  step es ss (Some m1') sscript1 = (Ok sst, m2, ss1) ->
  step es ss1 (Some m3') sscript2 = (r, m4, ss2) ->
  step ec sc2 (Some m4) script3 = (Ok st, out, sc3) ->
  exists evs sp ck sk evs2 salt n v v' two t p64 exts,
    new_events ss ss1 evs /\ answers PScramStoredPassword evs = [sp] /\
    new_events sc1 sc2 evs2 /\ keys_from ec a evs2 salt n ck sk /\
    client_saw ec a v ck m1 m2' m3 /\ server_saw v' two t p64 exts m1' m2 m3' /\
    (match plus with
     | Supported => exists name data, client_binding ec evs1 name data /\ cb_source es evs name data
     | ServerNoSupport => splus = false
     | ClientNoSupport => True
     end \/
     hmac_collision es a sk (view_message v) (st_server_key sp) (view_message v')).
Proof.
  intros Em Hp Hz1 Hz2 H1 Hn T H2 Es Hzs Hc Hsame S1 S2 H3.
  destruct (client_agrees_bound _ _ _ _ _ _ _ _ _ _ _ _ _ _ _ _ _ _ _ _ _ _ _ _ _ _ _ _ _ _ _ _ Em Hp Hz1 Hz2 H1 Hn T H2 Es Hzs Hc Hsame S1 S2 H3)
    as [v [v' [two [t [p64 [exts [ck [sk [evs2 [salt [n [evs [sp [Q1 [Q2 [_ [_ [Q3 [Q4 [Q5 [Q6 [_ [F [C [Y [D Z]]]]]]]]]]]]]]]]]]]]]]]]]].
  exists evs, sp, ck, sk, evs2, salt, n, v, v', two, t, p64, exts.
  do 6 (split; [assumption|]). destruct Z as [<-|Z]; [left|right; exact Z].
  exact (bound_alike _ _ _ _ _ _ _ _ F C Y D).
Qed.

Theorem server_same_channel ec es sc ss a plus splus input script1 st1 m1 sc1 evs1 m2' script2 st2 m3 sc2
    m1' sscript1 sst m2 ss1 m3' sscript2 r m4 ss2 p64 :
  s_mech sc = XScramC a (Some (ScInitial plus)) -> polite ec -> no_zero script1 -> no_zero script2 ->
  step ec sc input script1 = (Ok st1, m1, sc1) -> new_events sc sc1 evs1 -> text_answers evs1 ->
  step ec sc1 (Some m2') script2 = (Ok st2, m3, sc2) ->
  s_mech ss = XScramS a (Some (SsClientFirst splus)) -> no_zero sscript1 ->
  crypto_ok es -> same_crypto ec es ->
  step es ss (Some m1') sscript1 = (Ok sst, m2, ss1) ->
  step es ss1 (Some m3') sscript2 = (r, m4, ss2) ->
  ends_in_proof m3 p64 -> ends_in_proof m3' p64 -> vouches ss1 ss2 m4 ->
  exists evs sp ck sk evs2 salt n v v' two t exts,
    new_events ss ss1 evs /\ answers PScramStoredPassword evs = [sp] /\
    new_events sc1 sc2 evs2 /\ keys_from ec a evs2 salt n ck sk /\
    client_saw ec a v ck m1 m2' m3 /\ server_saw v' two t p64 exts m1' m2 m3' /\
    (st_stored_key sp = e_hash es a ck ->
     match plus with
     | Supported => exists name data, client_binding ec evs1 name data /\ cb_source es evs name data
     | ServerNoSupport => splus = false
     | ClientNoSupport => True
     end \/
     hmac_collision es a (st_stored_key sp) (view_message v) (st_stored_key sp) (view_message v') \/
     hash_collision es a (key_seen es a ck v v') ck).
Proof.
  intros Em Hp Hz1 Hz2 H1 Hn T H2 Es Hzs Hc Hsame S1 S2 P1 P2 Hv.
  destruct (server_agrees_bound _ _ _ _ _ _ _ _ _ _ _ _ _ _ _ _ _ _ _ _ _ _ _ _ _ _ _ _ _ Em Hp Hz1 Hz2 H1 Hn T H2 Es Hzs Hc Hsame S1 S2 P1 P2 Hv)
    as [v [v' [two [t [exts [ck [sk [evs2 [salt [n [evs [sp [Q1 [Q2 [_ [_ [Q3 [Q4 [Q5 [Q6 [F [C [Y [D Z]]]]]]]]]]]]]]]]]]]]]]]].
  exists evs, sp, ck, sk, evs2, salt, n, v, v', two, t, exts.
  do 6 (split; [assumption|]). intros K. destruct (Z K) as [<-|Z']; [left|right; exact Z'].
  exact (bound_alike _ _ _ _ _ _ _ _ F C Y D).
Qed.

(** With [this_cb] at both ends. *)
Lemma this_cb_alike ec es evs1 evs n d n' d' name data :
  e_chan ec = this_cb n d -> e_chan es = this_cb n' d' ->
  answers PChannelBindings evs1 = [] -> answers PChannelBindings evs = [] ->
  client_binding ec evs1 name data -> cb_source es evs name data -> n = n' /\ d = d'.
Proof.
  intros Ec Es N1 N2 [[C|[_ C]] _] [S|[_ S]]; try congruence.
  rewrite Ec in C. rewrite Es in S. apply this_cb_some in C, S. destruct C as [-> ->], S as [-> ->]. auto.
Qed.

Theorem client_this_cb ec es sc ss a splus input script1 st1 m1 sc1 evs1 m2' script2 st2 m3 sc2
    m1' sscript1 sst m2 ss1 evs m3' sscript2 r m4 ss2 script3 st out sc3 n d n' d' :
  s_mech sc = XScramC a (Some (ScInitial Supported)) -> polite ec -> no_zero script1 -> no_zero script2 ->
  step ec sc input script1 = (Ok st1, m1, sc1) -> new_events sc sc1 evs1 -> text_answers evs1 ->
  step ec sc1 (Some m2') script2 = (Ok st2, m3, sc2) ->
  s_mech ss = XScramS a (Some (SsClientFirst splus)) -> no_zero sscript1 ->
  crypto_ok es -> same_crypto ec es ->
  step es ss (Some m1') sscript1 = (Ok sst, m2, ss1) ->
  step es ss1 (Some m3') sscript2 = (r, m4, ss2) ->
  step ec sc2 (Some m4) script3 = (Ok st, out, sc3) ->
  e_chan ec = this_cb n d -> e_chan es = this_cb n' d' -> new_events ss ss1 evs ->
  answers PChannelBindings evs1 = [] -> answers PChannelBindings evs = [] ->
  exists sp ck sk evs2 salt i v v' two t p64 exts,
    answers PScramStoredPassword evs = [sp] /\
    new_events sc1 sc2 evs2 /\ keys_from ec a evs2 salt i ck sk /\
    client_saw ec a v ck m1 m2' m3 /\ server_saw v' two t p64 exts m1' m2 m3' /\
    ((n = n' /\ d = d') \/
     hmac_collision es a sk (view_message v) (st_server_key sp) (view_message v')).
Proof.
  intros Em Hp Hz1 Hz2 H1 Hn T H2 Es Hzs Hc Hsame S1 S2 H3 E1 E2 Hs N1 N2.
  destruct (client_same_channel _ _ _ _ _ _ _ _ _ _ _ _ _ _ _ _ _ _ _ _ _ _ _ _ _ _ _ _ _ _ _ _ Em Hp Hz1 Hz2 H1 Hn T H2 Es Hzs Hc Hsame S1 S2 H3)
    as [evs' [sp [ck [sk [evs2 [salt [i [v [v' [two [t [p64 [exts [Q1 [Q2 [Q3 [Q4 [Q5 [Q6 Z]]]]]]]]]]]]]]]]]]].
  assert (evs' = evs) as -> by (unfold new_events in *; rewrite Q1 in Hs; exact (app_inv_head _ _ _ Hs)).
  exists sp, ck, sk, evs2, salt, i, v, v', two, t, p64, exts.
  do 5 (split; [assumption|]). destruct Z as [[name [data [B C]]]|Z]; [left|right; exact Z].
  exact (this_cb_alike _ _ _ _ _ _ _ _ _ _ E1 E2 N1 N2 B C).
Qed.

Theorem server_this_cb ec es sc ss a splus input script1 st1 m1 sc1 evs1 m2' script2 st2 m3 sc2
    m1' sscript1 sst m2 ss1 evs m3' sscript2 r m4 ss2 p64 n d n' d' :
  s_mech sc = XScramC a (Some (ScInitial Supported)) -> polite ec -> no_zero script1 -> no_zero script2 ->
  step ec sc input script1 = (Ok st1, m1, sc1) -> new_events sc sc1 evs1 -> text_answers evs1 ->
  step ec sc1 (Some m2') script2 = (Ok st2, m3, sc2) ->
  s_mech ss = XScramS a (Some (SsClientFirst splus)) -> no_zero sscript1 ->
  crypto_ok es -> same_crypto ec es ->
  step es ss (Some m1') sscript1 = (Ok sst, m2, ss1) ->
  step es ss1 (Some m3') sscript2 = (r, m4, ss2) ->
  ends_in_proof m3 p64 -> ends_in_proof m3' p64 -> vouches ss1 ss2 m4 ->
  e_chan ec = this_cb n d -> e_chan es = this_cb n' d' -> new_events ss ss1 evs ->
  answers PChannelBindings evs1 = [] -> answers PChannelBindings evs = [] ->
  exists sp ck sk evs2 salt i v v' two t exts,
    answers PScramStoredPassword evs = [sp] /\
    new_events sc1 sc2 evs2 /\ keys_from ec a evs2 salt i ck sk /\
    client_saw ec a v ck m1 m2' m3 /\ server_saw v' two t p64 exts m1' m2 m3' /\
    (st_stored_key sp = e_hash es a ck ->
     (n = n' /\ d = d') \/
     hmac_collision es a (st_stored_key sp) (view_message v) (st_stored_key sp) (view_message v') \/
     hash_collision es a (key_seen es a ck v v') ck).
Proof.
  intros Em Hp Hz1 Hz2 H1 Hn T H2 Es Hzs Hc Hsame S1 S2 P1 P2 Hv E1 E2 Hs N1 N2.
  destruct (server_same_channel _ _ _ _ _ _ _ _ _ _ _ _ _ _ _ _ _ _ _ _ _ _ _ _ _ _ _ _ _ Em Hp Hz1 Hz2 H1 Hn T H2 Es Hzs Hc Hsame S1 S2 P1 P2 Hv)
    as [evs' [sp [ck [sk [evs2 [salt [i [v [v' [two [t [exts [Q1 [Q2 [Q3 [Q4 [Q5 [Q6 Z]]]]]]]]]]]]]]]]]].
  assert (evs' = evs) as -> by (unfold new_events in *; rewrite Q1 in Hs; exact (app_inv_head _ _ _ Hs)).
  exists sp, ck, sk, evs2, salt, i, v, v', two, t, exts.
  do 5 (split; [assumption|]). intros K. destruct (Z K) as [[name [data [B C]]]|Z']; [left|right; exact Z'].
  exact (this_cb_alike _ _ _ _ _ _ _ _ _ _ E1 E2 N1 N2 B C).
Qed.

(** Without channel binding data. *)
Theorem plus_client_unbound e s a input script :
  s_mech s = XScramC a (Some (ScInitial Supported)) -> e_chan e = no_channel_bindings ->
  withholds e POverrideCBType -> withholds e PChannelBindings ->
  exists s', step e s input script = (Err (EMissingChannelBindingData (lit "tls-unique")), [], s').
Proof.
  intros Em Ec W1 W2. destruct (step e s input script) as [[r out] s'] eqn:H.
  apply (step_scram_client _ _ _ _ _ _ _ _ _ Em) in H. destruct H as [st1 [w' [H [-> ->]]]].
  unfold scram_client_step, bind at 1, getl, bind at 1, setl, bind at 1, locally in H.
  rewrite send_client_first_eq in H. unfold bind at 1, client_cbflag, bind at 1 in H. rewrite push_ok in H. cbn [fst snd app] in H.
  set (w := mk_world [] script (s_trace s) (s_rng s) (s_val s)) in H.
  unfold bind at 1 in H.
  match type of H with context [maybe_need_with e POverrideCBType ?c ?f ?l w] =>
    destruct (maybe_need_with_withholds e POverrideCBType c f l w W1) as [cs [_ E]]; rewrite E in H; clear E end.
  unfold bind at 1 in H.
  match type of H with context [maybe_need_cb_data e ?n ?c ?f ?l ?w1] =>
    destruct (cb_data_user e n c f l w1 ltac:(rewrite Ec; reflexivity)) as [c' [_ [_ E]]]; rewrite E in H; clear E end.
  match type of H with context [maybe_need_with e PChannelBindings ?c ?f ?l ?w1] =>
    destruct (maybe_need_with_withholds e PChannelBindings c f l w1 W2) as [cs' [_ E]]; rewrite E in H; clear E end.
  match type of H with context [need_cb_data e ?n ?c ?f ?l ?w1] =>
    destruct (cb_data_missing e n c f l w1 ltac:(rewrite Ec; reflexivity) W2) as [w2 [E O]]; rewrite E in H; clear E end.
  injection H as <- <- <-. rewrite O. eexists. reflexivity.
Qed.

Theorem server_unbound e s a plus m name two z user cn t script :
  s_mech s = XScramS a (Some (SsClientFirst plus)) -> e_chan e = no_channel_bindings ->
  withholds e PChannelBindings -> client_first_fields m (CbUsed name) two z user cn t ->
  exists s', step e s (Some m) script = (Err (EMissingChannelBindingData name), [], s').
Proof.
  intros Em Ec W F. destruct (step e s (Some m) script) as [[r out] s'] eqn:H.
  apply (step_scram_server _ _ _ _ _ _ _ _ _ Em) in H. destruct H as [st1 [w' [H [-> ->]]]].
  unfold scram_server_step, bind at 1, getl, bind at 1, setl, bind at 1, locally in H.
  apply fields_parse in F. unfold handle_client_first, bind at 1, scram_parse, of_res in H. rewrite F in H.
  cbn [rmap_err] in H. unfold bind at 1, setl in H. cbn [cf_cbflag cf_username cf_authzid] in H.
  unfold bind at 1 in H.
  match type of H with context [need_cb_data e ?n ?c ?f ?l ?w1] =>
    destruct (cb_data_missing e n c f l w1 ltac:(rewrite Ec; reflexivity) W) as [w2 [E O]]; rewrite E in H; clear E end.
  injection H as <- <- <-. rewrite O. eexists. reflexivity.
Qed.
