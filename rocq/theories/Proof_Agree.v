(** Lemmas for C77 and C78. *)
From Coq Require Import Lia.
From Verif Require Import Bytes BytesFacts Utf8 Types World CallbackSpec Base64 Base64Facts Num OAuth
  ScramParser Scram Session Registry Spec_Wire Spec_Simple Spec_OAuth Spec_ScramText Spec_Scram
  Spec_Agree Proof_Wire Proof_ScramText Proof_Scram Proof_ScramMain Proof_ScramProps.

(** * Views are determined by what is signed *)

(** No part of the view can be taken for the end of another. *)
Definition separate (v : view) : Prop :=
  legal_flag (v_flag v) /\ match v_authzid v with Some z => free ","%char z | None => True end /\
  free ","%char (v_user v) /\ free ","%char (v_client_nonce v) /\ free ","%char (v_server_nonce v) /\
  free ","%char (v_salt v) /\ free ","%char (v_iterations v).

Lemma gs2_split f z d f' z' d' :
  legal_flag f -> legal_flag f' ->
  match z with Some z => free ","%char z | None => True end ->
  match z' with Some z => free ","%char z | None => True end ->
  gs2_text f z ++ d = gs2_text f' z' ++ d' -> f = f' /\ z = z' /\ d = d'.
Proof.
  intros L L' Z Z' H. unfold gs2_text in H. rewrite <- !app_assoc in H.
  cbn [lit list_ascii_of_string app] in H.
  apply app_sep_inj in H; [|apply flag_no_comma; assumption..]. destruct H as [Hf H].
  assert (f = f') as ->.
  { destruct f, f'; cbn in Hf; try discriminate; try reflexivity. injection Hf as ->. reflexivity. }
  split; [reflexivity|].
  assert (Fz : forall o : option bytes, match o with Some z => free ","%char z | None => True end ->
    ~ In ","%char (match o with Some z => ["a"%char; "="%char] ++ z | None => [] end)).
  { intros [o|] Ho; [|easy]. cbn. intros [?|[?|?]]; [discriminate..|exact (Ho H0)]. }
  apply app_sep_inj in H; [|exact (Fz z Z)|exact (Fz z' Z')].
  destruct H as [Hz Hd]. split; [|exact Hd].
  destruct z, z'; cbn in Hz; try discriminate; try reflexivity. injection Hz as ->. reflexivity.
Qed.

Lemma encode_free x : free ","%char (encode x).
Proof. apply encode_no. reflexivity. Qed.

Theorem views_signed v v' : separate v -> separate v' -> view_message v = view_message v' -> v = v'.
Proof.
  intros [A1 [A2 [A3 [A4 [A5 [A6 A7]]]]]] [B1 [B2 [B3 [B4 [B5 [B6 B7]]]]]] H.
  destruct v as [f z u cn sn s i d], v' as [f' z' u' cn' sn' s' i' d'].
  unfold view_message, view_first, view_challenge, view_final, view_nonce, view_binding in H.
  cbn [v_flag v_authzid v_user v_client_nonce v_server_nonce v_salt v_iterations v_binding] in *.
  rewrite <- !auth_message_rfc in H. apply auth_message_inj in H.
  - destruct H as [-> [-> [-> [-> [-> H]]]]]. apply encode_inj in H.
    apply gs2_split in H; [|assumption..]. destruct H as [-> [-> ->]]. reflexivity.
  - repeat constructor; try assumption; apply encode_free.
Qed.

(** * The client's view *)

Theorem client_view_full e s0 a plus input script1 st1 m1 s1 evs1 m2 script2 st2 m3 s2 :
  s_mech s0 = XScramC a (Some (ScInitial plus)) -> polite e -> no_zero script1 -> no_zero script2 ->
  step e s0 input script1 = (Ok st1, m1, s1) -> new_events s0 s1 evs1 -> text_answers evs1 ->
  step e s1 (Some m2) script2 = (Ok st2, m3, s2) ->
  exists v ck sk evs2 salt n,
    client_saw e a v ck m1 m2 m3 /\ separate v /\
    v_client_nonce v = nonce_from e (s_rng s0) /\ v_server_nonce v <> [] /\
    new_events s1 s2 evs2 /\ keys_from e a evs2 salt n ck sk /\
    length (client_proof e a ck (view_message v)) = hlen a /\
    (forall m4 script3 st out s3, step e s2 (Some m4) script3 = (Ok st, out, s3) ->
      st = Finished false /\ m4 = lit "v=" ++ encode (e_hmac e a sk (view_message v))) /\
    flag_for plus (v_flag v) /\ client_flag_data e evs1 (v_flag v) (v_binding v).
Proof.
  intros Em Hp Hz1 Hz2 H1 Hn T H2. destruct T as [T1 [T2 T3]].
  destruct (client_first_polite _ _ _ _ _ _ _ _ _ Em Hp Hz1 H1)
    as [evs [f [z [zesc [data [user [uesc [Hn' [-> [Em1 [W1 [_ [_ [_ [Ha [Eu [Hz' [Ez [Hf Hd]]]]]]]]]]]]]]]]]]].
  assert (evs = evs1) as ->.
  { unfold new_events in Hn, Hn'. rewrite Hn in Hn'. apply app_inv_head in Hn'. auto. }
  pose proof (client_flag_legal _ _ _ _ _ Hf Hd T3) as Lf.
  destruct (client_second _ _ _ _ _ _ _ _ _ _ _ W1 H2) as [[_ [Hno _]]|H];
    [exfalso; exact (Hno _ eq_refl)|].
  destruct H as [sn [salt64 [salt [iters [n [Hc H]]]]]].
  destruct (H st2 eq_refl) as [-> [evs2 [ck [sk [N [V [_ [K [Hl [W2 O]]]]]]]]]].
  exists (mk_view f zesc uesc (nonce_from e (s_rng s0)) sn salt64 iters data), ck, sk, evs2, salt, n.
  destruct Hc as [Em2 [Hsn [Hs [Hi [_ [F1 [F2 F3]]]]]]].
  split; [|split; [|split; [|split; [|split; [|split; [|split; [|split]]]]]]].
  - split; [exact Em1|]. split; [exact Em2|]. rewrite (O Hz2). reflexivity.
  - split; [exact Lf|]. split.
    { cbn. destruct z, zesc; cbn in Ez; try contradiction; [|exact I]. eapply escape_no_comma; eauto. }
    split; [eapply escape_no_comma; eauto|].
    split; [apply nonce_from_free|]. split; [|split; [exact F2|exact F3]].
    intros Hin. apply F1. apply in_or_app. right. exact Hin.
  - reflexivity.
  - exact Hsn.
  - exact N.
  - exact K.
  - exact Hl.
  - intros m4 script3 st out s3 H3.
    destruct (client_third _ _ _ _ _ _ _ _ _ _ _ _ _ W2 H3)
      as [_ [_ [[E1 [E2 _]]|[_ [_ [Hr _]]]]]]; [|exfalso; exact (Hr _ eq_refl)].
    split; [congruence|exact E1].
  - split; [exact Hf|exact Hd].
Qed.
Theorem client_view e s0 a plus input script1 st1 m1 s1 evs1 m2 script2 st2 m3 s2 :
  s_mech s0 = XScramC a (Some (ScInitial plus)) -> polite e -> no_zero script1 -> no_zero script2 ->
  step e s0 input script1 = (Ok st1, m1, s1) -> new_events s0 s1 evs1 -> text_answers evs1 ->
  step e s1 (Some m2) script2 = (Ok st2, m3, s2) ->
  exists v ck sk evs2 salt n,
    client_saw e a v ck m1 m2 m3 /\ separate v /\
    v_client_nonce v = nonce_from e (s_rng s0) /\ v_server_nonce v <> [] /\
    new_events s1 s2 evs2 /\ keys_from e a evs2 salt n ck sk /\
    length (client_proof e a ck (view_message v)) = hlen a /\
    forall m4 script3 st out s3, step e s2 (Some m4) script3 = (Ok st, out, s3) ->
      st = Finished false /\ m4 = lit "v=" ++ encode (e_hmac e a sk (view_message v)).
Proof.
  intros Em Hp Hz1 Hz2 H1 Hn T H2.
  destruct (client_view_full _ _ _ _ _ _ _ _ _ _ _ _ _ _ _ Em Hp Hz1 Hz2 H1 Hn T H2)
    as [v [ck [sk [evs2 [salt [n [A [B [C [D [E [F [G [H _]]]]]]]]]]]]]].
  exists v, ck, sk, evs2, salt, n. repeat (split; [assumption|]). assumption.
Qed.

(** * The server's view *)

Theorem server_view_full e s0 a plus m1 script1 st out1 s1 m2 script2 r out2 s2 :
  s_mech s0 = XScramS a (Some (SsClientFirst plus)) -> crypto_ok e -> no_zero script1 ->
  step e s0 (Some m1) script1 = (Ok st, out1, s1) ->
  step e s1 (Some m2) script2 = (r, out2, s2) ->
  vouches s1 s2 out2 ->
  exists v two t p64 exts evs sp P rest,
    server_saw v two t p64 exts m1 out1 m2 /\ separate v /\
    v_server_nonce v = nonce_from e (s_rng s0) /\
    new_events s0 s1 evs /\ answers PScramStoredPassword evs = [sp] /\
    proof_value a p64 P /\ proves e a (st_stored_key sp) (view_message v) P /\
    lit "v=" ++ encode (e_hmac e a (st_server_key sp) (view_message v)) = out2 ++ rest /\
    (v_flag v = CbSupportedNotUsed -> plus = false) /\ flag_data e evs (v_flag v) (v_binding v).
Proof.
  intros Em Hc Hz H1 H2 Hv.
  destruct (server_first_any _ _ _ _ _ _ _ _ _ Em H1)
    as [evs [f [two [z [user [cn [t [data [-> [Hn [Hval [_ [Hf [Hy [Hd Hs]]]]]]]]]]]]]]].
  cbv zeta in Hs. destruct Hs as [[sp [Ha [Hu [Hw [_ Ho]]]]]|[Hw _]].
  - destruct (server_second _ _ _ _ _ _ _ _ _ _ _ _ _ _ Hw Hc H2) as [H|[_ [He [_ [Hpre _]]]]].
    + destruct H as [cb [p64 [exts [rest [Hauth [Hvt Hr]]]]]].
      destruct Hauth as [Em2 [F1 [F2 [F3 [F4 [Hdec [P [HP Hprf]]]]]]]].
      pose proof (decode_canonical _ _ Hdec) as Ecb. subst cb.
      exists (mk_view f z user cn (nonce_from e (s_rng s0)) (encode (st_salt sp))
        (fmt_u32 (st_iterations sp)) data), two, t, p64, exts, evs, sp, P, rest.
      split; [|split; [|split; [|split; [|split; [|split; [|split; [|split]]]]]]].
      * split; [exact Hf|]. split; [exact (Ho Hz)|]. split; [exact Em2|].
        split; [exact F1|]. split; [exact F2|]. split; [exact F3|exact F4].
      * destruct Hf as [_ [_ [Lf [Ln [_ [Fz [Fu _]]]]]]].
        split; [exact Lf|]. split.
        { cbn. destruct z; [|exact I]. intros Hin. apply Fz. apply in_or_app. right. exact Hin. }
        split; [exact Fu|]. split; [apply nonce_no_comma; exact Ln|].
        split; [apply nonce_from_free|]. split; [apply encode_free|apply fmt_free].
      * reflexivity.
      * exact Hn.
      * exact Ha.
      * exact HP.
      * exact Hprf.
      * exact Hvt.
      * split; [exact Hy|exact Hd].
    + exfalso. revert Hv. apply no_vouch; [exact He|apply error_not_v; exact Hpre].
  - exfalso. revert Hv.
    destruct (server_second_unknown _ _ _ _ _ _ _ _ Hw H2) as [He [_ [[rest Hpre] _]]].
    apply no_vouch; [exact He|]. intros x ->. discriminate.
Qed.
Theorem server_view e s0 a plus m1 script1 st out1 s1 m2 script2 r out2 s2 :
  s_mech s0 = XScramS a (Some (SsClientFirst plus)) -> crypto_ok e -> no_zero script1 ->
  step e s0 (Some m1) script1 = (Ok st, out1, s1) ->
  step e s1 (Some m2) script2 = (r, out2, s2) ->
  vouches s1 s2 out2 ->
  exists v two t p64 exts evs sp P rest,
    server_saw v two t p64 exts m1 out1 m2 /\ separate v /\
    v_server_nonce v = nonce_from e (s_rng s0) /\
    new_events s0 s1 evs /\ answers PScramStoredPassword evs = [sp] /\
    proof_value a p64 P /\ proves e a (st_stored_key sp) (view_message v) P /\
    lit "v=" ++ encode (e_hmac e a (st_server_key sp) (view_message v)) = out2 ++ rest.
Proof.
  intros Em Hc Hz H1 H2 Hv.
  destruct (server_view_full _ _ _ _ _ _ _ _ _ _ _ _ _ _ Em Hc Hz H1 H2 Hv)
    as [v [two [t [p64 [exts [evs [sp [P [rest [A [B [C [D [E [F [G [H _]]]]]]]]]]]]]]]]].
  exists v, two, t, p64, exts, evs, sp, P, rest. repeat (split; [assumption|]). assumption.
Qed.

Definition bytes_dec (x y : bytes) : {x = y} + {x <> y} := list_eq_dec ascii_dec x y.

(** ** The client accepts what the server wrote *)

Theorem client_agrees_bound ec es sc ss a plus splus input script1 st1 m1 sc1 evs1 m2' script2 st2 m3 sc2
    m1' sscript1 sst m2 ss1 m3' sscript2 r m4 ss2 script3 st out sc3 :
  s_mech sc = XScramC a (Some (ScInitial plus)) -> polite ec -> no_zero script1 -> no_zero script2 ->
  step ec sc input script1 = (Ok st1, m1, sc1) -> new_events sc sc1 evs1 -> text_answers evs1 ->
  step ec sc1 (Some m2') script2 = (Ok st2, m3, sc2) ->
  s_mech ss = XScramS a (Some (SsClientFirst splus)) -> no_zero sscript1 ->
  crypto_ok es -> same_crypto ec es ->
  step es ss (Some m1') sscript1 = (Ok sst, m2, ss1) ->
  step es ss1 (Some m3') sscript2 = (r, m4, ss2) ->
  step ec sc2 (Some m4) script3 = (Ok st, out, sc3) ->
  exists v v' two t p64 exts ck sk evs2 salt n evs sp,
    client_saw ec a v ck m1 m2' m3 /\ server_saw v' two t p64 exts m1' m2 m3' /\
    v_client_nonce v = nonce_from ec (s_rng sc) /\
    v_server_nonce v' = nonce_from es (s_rng ss) /\
    new_events sc1 sc2 evs2 /\ keys_from ec a evs2 salt n ck sk /\
    new_events ss ss1 evs /\ answers PScramStoredPassword evs = [sp] /\
    st = Finished false /\
    flag_for plus (v_flag v) /\ client_flag_data ec evs1 (v_flag v) (v_binding v) /\
    (v_flag v' = CbSupportedNotUsed -> splus = false) /\ flag_data es evs (v_flag v') (v_binding v') /\
    (v = v' \/
     hmac_collision es a sk (view_message v) (st_server_key sp) (view_message v')).
Proof.
  intros Em Hp Hz1 Hz2 H1 Hn T H2 Es Hzs Hc Hsame S1 S2 H3.
  destruct (client_view_full _ _ _ _ _ _ _ _ _ _ _ _ _ _ _ Em Hp Hz1 Hz2 H1 Hn T H2)
    as [v [ck [sk [evs2 [salt [n [Cs [Sv [Nv [_ [N2 [K [_ [Acc [Fc Dc]]]]]]]]]]]]]]].
  destruct (Acc _ _ _ _ _ H3) as [-> E4].
  assert (Hv : vouches ss1 ss2 m4) by (right; rewrite E4; eexists; reflexivity).
  destruct (server_view_full _ _ _ _ _ _ _ _ _ _ _ _ _ _ Es Hc Hzs S1 S2 Hv)
    as [v' [two [t [p64 [exts [evs [sp [P [rest [Ss [Sv' [Nv' [Ev [Ea [_ [_ [Vt [Fs Ds]]]]]]]]]]]]]]]]]].
  exists v, v', two, t, p64, exts, ck, sk, evs2, salt, n, evs, sp.
  do 13 (split; [assumption || reflexivity|]).
  destruct Hsame as [_ [Hh _]]. rewrite E4, Hh in Vt.
  assert (Es' : e_hmac es a sk (view_message v) = e_hmac es a (st_server_key sp) (view_message v')).
  { rewrite <- app_assoc in Vt. apply app_inv_head in Vt.
    assert (L : length (encode (e_hmac es a (st_server_key sp) (view_message v'))) =
      length (encode (e_hmac es a sk (view_message v)) ++ rest)) by (rewrite Vt; reflexivity).
    destruct Hc as [_ [Hl _]].
    rewrite app_length, !encode_length, !Hl in L.
    assert (rest = []) as -> by (destruct rest; [reflexivity|cbn in L; lia]).
    rewrite app_nil_r in Vt. apply encode_inj in Vt. symmetry. exact Vt. }
  destruct (bytes_dec (view_message v) (view_message v')) as [E|E].
  - left. exact (views_signed _ _ Sv Sv' E).
  - right. split; assumption.
Qed.
Theorem client_agrees ec es sc ss a plus splus input script1 st1 m1 sc1 evs1 m2' script2 st2 m3 sc2
    m1' sscript1 sst m2 ss1 m3' sscript2 r m4 ss2 script3 st out sc3 :
  s_mech sc = XScramC a (Some (ScInitial plus)) -> polite ec -> no_zero script1 -> no_zero script2 ->
  step ec sc input script1 = (Ok st1, m1, sc1) -> new_events sc sc1 evs1 -> text_answers evs1 ->
  step ec sc1 (Some m2') script2 = (Ok st2, m3, sc2) ->
  s_mech ss = XScramS a (Some (SsClientFirst splus)) -> no_zero sscript1 ->
  crypto_ok es -> same_crypto ec es ->
  step es ss (Some m1') sscript1 = (Ok sst, m2, ss1) ->
  step es ss1 (Some m3') sscript2 = (r, m4, ss2) ->
  step ec sc2 (Some m4) script3 = (Ok st, out, sc3) ->
  exists v v' two t p64 exts ck sk evs2 salt n evs sp,
    client_saw ec a v ck m1 m2' m3 /\ server_saw v' two t p64 exts m1' m2 m3' /\
    v_client_nonce v = nonce_from ec (s_rng sc) /\
    v_server_nonce v' = nonce_from es (s_rng ss) /\
    new_events sc1 sc2 evs2 /\ keys_from ec a evs2 salt n ck sk /\
    new_events ss ss1 evs /\ answers PScramStoredPassword evs = [sp] /\
    st = Finished false /\
    (v = v' \/
     hmac_collision es a sk (view_message v) (st_server_key sp) (view_message v')).
Proof.
  intros Em Hp Hz1 Hz2 H1 Hn T H2 Es Hzs Hc Hsame S1 S2 H3.
  destruct (client_agrees_bound _ _ _ _ _ _ _ _ _ _ _ _ _ _ _ _ _ _ _ _ _ _ _ _ _ _ _ _ _ _ _ _ Em Hp Hz1 Hz2 H1 Hn T H2 Es Hzs Hc Hsame S1 S2 H3)
    as [v [v' [two [t [p64 [exts [ck [sk [evs2 [salt [n [evs [sp [Q0 [Q1 [Q2 [Q3 [Q4 [Q5 [Q6 [Q7 [Q8 [_ [_ [_ [_ Z]]]]]]]]]]]]]]]]]]]]]]]]]].
  exists v, v', two, t, p64, exts, ck, sk, evs2, salt, n, evs, sp. repeat (split; [assumption|]). assumption.
Qed.

(** ** The server accepts what the client wrote *)

Lemma xorb8_inj a b b' : xorb8 a b = xorb8 a b' -> b = b'.
Proof.
  destruct a as [a0 a1 a2 a3 a4 a5 a6 a7], b as [b0 b1 b2 b3 b4 b5 b6 b7],
    b' as [c0 c1 c2 c3 c4 c5 c6 c7]. cbn.
  intros H. injection H as H0 H1 H2 H3 H4 H5 H6 H7.
  f_equal; match goal with H : xorb ?a ?b = xorb ?a ?c |- ?b = ?c =>
    destruct a, b, c; try reflexivity; discriminate H end.
Qed.

Lemma xor_back x : forall h h' y, length h = length x -> length h' = length x ->
  xor_zip x h' = xor_zip y h -> length y = length x -> y = x -> h = h'.
Proof.
  induction x as [|c x IH]; intros [|b h] [|b' h'] y; cbn; try discriminate; try reflexivity.
  intros L1 L2 H Ly ->. injection L1 as L1. injection L2 as L2. cbn in H.
  injection H as H1 H2. apply xorb8_inj in H1. subst b'. f_equal.
  apply (IH h h' x); auto.
Qed.

Lemma masked_twice k h h' : length h = length h' -> length (xor_text k h) = length h ->
  xor_text (xor_text k h) h' = k -> h = h'.
Proof.
  intros L Lk H. rewrite <- !xor_zip_text in *.
  assert (E : length k = length h).
  { apply (f_equal (@length _)) in H. rewrite !xor_zip_length in *. unfold bytes, byte in *. lia. }
  apply (xor_back k h h' k); auto; [congruence|].
  rewrite <- H at 1. rewrite xor_zip_cancel; [reflexivity|].
  rewrite xor_zip_length. unfold bytes, byte in *. lia.
Qed.

(** A proof made by a client with key [ck] over [x] and accepted over [y]. *)
Lemma proof_moved e a ck x y : crypto_ok e ->
  length (client_proof e a ck x) = hlen a ->
  proves e a (e_hash e a ck) y (client_proof e a ck x) ->
  x = y \/ hmac_collision e a (e_hash e a ck) x (e_hash e a ck) y \/
  hash_collision e a (xor_text (client_proof e a ck x) (e_hmac e a (e_hash e a ck) y)) ck.
Proof.
  intros [_ [Hl _]] Lp Hp. unfold proves in Hp.
  destruct (bytes_dec (xor_text (client_proof e a ck x) (e_hmac e a (e_hash e a ck) y)) ck) as [E|E].
  - unfold client_proof in E, Lp. apply masked_twice in E; [|rewrite !Hl; reflexivity|rewrite Lp, Hl; reflexivity].
    destruct (bytes_dec x y) as [Exy|Exy]; [left; exact Exy|right; left; split; assumption].
  - right; right. split; assumption.
Qed.

Lemma last_proof_unique m p p' : ends_in_proof m p -> ends_in_proof m p' -> p = p'.
Proof.
  intros [x [E F]] [x' [E' F']]. subst m.
  assert (K : forall a b c d : bytes, free ","%char b -> free ","%char d ->
    a ++ ","%char :: b = c ++ ","%char :: d -> b = d).
  { clear. induction a as [|u a IH]; intros b [|w c] d Fb Fd H; cbn in H.
    - congruence.
    - injection H as _ H. exfalso. apply Fb. rewrite H. apply in_or_app. right. left. reflexivity.
    - injection H as _ H. exfalso. apply Fd. rewrite <- H. apply in_or_app. right. left. reflexivity.
    - injection H as _ H. exact (IH _ _ _ Fb Fd H). }
  assert (Q : forall y : bytes, free ","%char y -> free ","%char (lit "p=" ++ y)).
  { intros y Fy. cbn. intros [H|[H|H]]; [discriminate..|exact (Fy H)]. }
  change (lit ",p=") with (","%char :: lit "p=") in E'. cbn [app] in E'.
  apply K in E'; [|apply Q; exact F|apply Q; exact F'].
  apply app_inv_head in E'. exact E'.
Qed.

Lemma fields_end_in_proof m cb fn p64 exts : final_fields m cb fn p64 exts -> ends_in_proof m p64.
Proof.
  intros [E [_ [_ [F _]]]]. exists (final_bare cb fn ++ extensions_text exts).
  rewrite <- app_assoc. split; [exact E|exact F].
Qed.

Lemma full_proof_value a q P : length q = hlen a -> proof_value a (encode q) P -> P = q.
Proof.
  intros L [p [Hd [_ ->]]]. rewrite decode_encode in Hd. injection Hd as ->.
  rewrite L, Nat.sub_diag. apply app_nil_r.
Qed.

Theorem server_agrees_bound ec es sc ss a plus splus input script1 st1 m1 sc1 evs1 m2' script2 st2 m3 sc2
    m1' sscript1 sst m2 ss1 m3' sscript2 r m4 ss2 p64 :
  s_mech sc = XScramC a (Some (ScInitial plus)) -> polite ec -> no_zero script1 -> no_zero script2 ->
  step ec sc input script1 = (Ok st1, m1, sc1) -> new_events sc sc1 evs1 -> text_answers evs1 ->
  step ec sc1 (Some m2') script2 = (Ok st2, m3, sc2) ->
  s_mech ss = XScramS a (Some (SsClientFirst splus)) -> no_zero sscript1 ->
  crypto_ok es -> same_crypto ec es ->
  step es ss (Some m1') sscript1 = (Ok sst, m2, ss1) ->
  step es ss1 (Some m3') sscript2 = (r, m4, ss2) ->
  ends_in_proof m3 p64 -> ends_in_proof m3' p64 -> vouches ss1 ss2 m4 ->
  exists v v' two t exts ck sk evs2 salt n evs sp,
    client_saw ec a v ck m1 m2' m3 /\ server_saw v' two t p64 exts m1' m2 m3' /\
    v_client_nonce v = nonce_from ec (s_rng sc) /\
    v_server_nonce v' = nonce_from es (s_rng ss) /\
    new_events sc1 sc2 evs2 /\ keys_from ec a evs2 salt n ck sk /\
    new_events ss ss1 evs /\ answers PScramStoredPassword evs = [sp] /\
    flag_for plus (v_flag v) /\ client_flag_data ec evs1 (v_flag v) (v_binding v) /\
    (v_flag v' = CbSupportedNotUsed -> splus = false) /\ flag_data es evs (v_flag v') (v_binding v') /\
    (st_stored_key sp = e_hash es a ck ->
     v = v' \/
     hmac_collision es a (st_stored_key sp) (view_message v) (st_stored_key sp) (view_message v') \/
     hash_collision es a (key_seen es a ck v v') ck).
Proof.
  intros Em Hp Hz1 Hz2 H1 Hn T H2 Es Hzs Hc Hsame S1 S2 P1 P2 Hv.
  destruct (client_view_full _ _ _ _ _ _ _ _ _ _ _ _ _ _ _ Em Hp Hz1 Hz2 H1 Hn T H2)
    as [v [ck [sk [evs2 [salt [n [Cs [Sv [Nv [_ [N2 [K [Lp [_ [Fc Dc]]]]]]]]]]]]]]].
  destruct (server_view_full _ _ _ _ _ _ _ _ _ _ _ _ _ _ Es Hc Hzs S1 S2 Hv)
    as [v' [two [t [q64 [exts [evs [sp [P [rest [Ss [Sv' [Nv' [Ev [Ea [HP [Hprf [_ [Fs Ds]]]]]]]]]]]]]]]]]].
  assert (q64 = p64) as ->.
  { apply (last_proof_unique m3'); [|exact P2]. destruct Ss as [_ [_ Hf]].
    exact (fields_end_in_proof _ _ _ _ _ Hf). }
  exists v, v', two, t, exts, ck, sk, evs2, salt, n, evs, sp.
  do 12 (split; [assumption|]).
  assert (Ep : p64 = encode (client_proof ec a ck (view_message v))).
  { apply (last_proof_unique m3 _ _ P1). destruct Cs as [_ [_ E]]. exists (view_final v).
    split; [exact E|apply encode_free]. }
  subst p64. pose proof (full_proof_value _ _ _ Lp HP) as ->.
  intros Ek. rewrite Ek in *.
  assert (Ec : client_proof ec a ck (view_message v) = client_proof es a ck (view_message v)).
  { destruct Hsame as [Q1 [Q2 _]]. unfold client_proof. rewrite Q1, Q2. reflexivity. }
  rewrite Ec in Lp, Hprf.
  destruct (proof_moved _ _ _ _ _ Hc Lp Hprf) as [E|[E|E]].
  - left. exact (views_signed _ _ Sv Sv' E).
  - right. left. exact E.
  - right. right. exact E.
Qed.
Theorem server_agrees ec es sc ss a plus splus input script1 st1 m1 sc1 evs1 m2' script2 st2 m3 sc2
    m1' sscript1 sst m2 ss1 m3' sscript2 r m4 ss2 p64 :
  s_mech sc = XScramC a (Some (ScInitial plus)) -> polite ec -> no_zero script1 -> no_zero script2 ->
  step ec sc input script1 = (Ok st1, m1, sc1) -> new_events sc sc1 evs1 -> text_answers evs1 ->
  step ec sc1 (Some m2') script2 = (Ok st2, m3, sc2) ->
  s_mech ss = XScramS a (Some (SsClientFirst splus)) -> no_zero sscript1 ->
  crypto_ok es -> same_crypto ec es ->
  step es ss (Some m1') sscript1 = (Ok sst, m2, ss1) ->
  step es ss1 (Some m3') sscript2 = (r, m4, ss2) ->
  ends_in_proof m3 p64 -> ends_in_proof m3' p64 -> vouches ss1 ss2 m4 ->
  exists v v' two t exts ck sk evs2 salt n evs sp,
    client_saw ec a v ck m1 m2' m3 /\ server_saw v' two t p64 exts m1' m2 m3' /\
    v_client_nonce v = nonce_from ec (s_rng sc) /\
    v_server_nonce v' = nonce_from es (s_rng ss) /\
    new_events sc1 sc2 evs2 /\ keys_from ec a evs2 salt n ck sk /\
    new_events ss ss1 evs /\ answers PScramStoredPassword evs = [sp] /\
    (st_stored_key sp = e_hash es a ck ->
     v = v' \/
     hmac_collision es a (st_stored_key sp) (view_message v) (st_stored_key sp) (view_message v') \/
     hash_collision es a (key_seen es a ck v v') ck).
Proof.
  intros Em Hp Hz1 Hz2 H1 Hn T H2 Es Hzs Hc Hsame S1 S2 P1 P2 Hv.
  destruct (server_agrees_bound _ _ _ _ _ _ _ _ _ _ _ _ _ _ _ _ _ _ _ _ _ _ _ _ _ _ _ _ _ Em Hp Hz1 Hz2 H1 Hn T H2 Es Hzs Hc Hsame S1 S2 P1 P2 Hv)
    as [v [v' [two [t [exts [ck [sk [evs2 [salt [n [evs [sp [Q0 [Q1 [Q2 [Q3 [Q4 [Q5 [Q6 [Q7 [_ [_ [_ [_ Z]]]]]]]]]]]]]]]]]]]]]]]].
  exists v, v', two, t, exts, ck, sk, evs2, salt, n, evs, sp. repeat (split; [assumption|]). assumption.
Qed.

(** * Replay *)

Lemma same_end (x y x' y' : bytes) : length y = length y' -> x ++ y = x' ++ y' -> y = y'.
Proof.
  revert x'. induction x as [|c x IH]; intros [|c' x'] L H; cbn in H.
  - exact H.
  - subst y. cbn in L. rewrite app_length in L. lia.
  - subst y'. cbn in L. rewrite app_length in L. lia.
  - injection H as _ H. exact (IH _ L H).
Qed.

(** A client-final message is accepted only by a session whose nonce it was made for. *)
Theorem final_once e e' s s' a a' plus plus' m1 m1' sc1 sc1' st st' out out' s1 s1' m
    sc2 sc2' r r' o o' s2 s2' :
  s_mech s = XScramS a (Some (SsClientFirst plus)) -> crypto_ok e -> no_zero sc1 ->
  s_mech s' = XScramS a' (Some (SsClientFirst plus')) -> crypto_ok e' -> no_zero sc1' ->
  step e s (Some m1) sc1 = (Ok st, out, s1) -> step e' s' (Some m1') sc1' = (Ok st', out', s1') ->
  step e s1 (Some m) sc2 = (r, o, s2) -> step e' s1' (Some m) sc2' = (r', o', s2') ->
  vouches s1 s2 o -> vouches s1' s2' o' ->
  nonce_from e (s_rng s) = nonce_from e' (s_rng s').
Proof.
  intros Em Hc Hz Em' Hc' Hz' H1 H1' H2 H2' V V'.
  destruct (server_view _ _ _ _ _ _ _ _ _ _ _ _ _ _ Em Hc Hz H1 H2 V)
    as [v [two [t [p64 [exts [evs [sp [P [rest [Ss [Sv [Nv _]]]]]]]]]]]].
  destruct (server_view _ _ _ _ _ _ _ _ _ _ _ _ _ _ Em' Hc' Hz' H1' H2' V')
    as [v' [two' [t' [p64' [exts' [evs' [sp' [P' [rest' [Ss' [Sv' [Nv' _]]]]]]]]]]]].
  destruct Ss as [_ [_ [E [F1 [F2 _]]]]]. destruct Ss' as [_ [_ [E' [F1' [F2' _]]]]].
  rewrite <- Nv, <- Nv'. apply (same_end (v_client_nonce v) _ (v_client_nonce v')).
  { rewrite Nv, Nv'. rewrite (proj2 (nonce_from_legal e (s_rng s))), (proj2 (nonce_from_legal e' (s_rng s'))). reflexivity. }
  assert (Tl : forall l p, exists w, extensions_text l ++ lit ",p=" ++ p = ","%char :: w).
  { intros [|x l] p; cbn; eexists; reflexivity. }
  destruct (Tl exts p64) as [w W]. destruct (Tl exts' p64') as [w' W'].
  rewrite W in E. rewrite W' in E'. rewrite E in E'. unfold final_bare in E'.
  rewrite <- !app_assoc in E'. cbn [lit list_ascii_of_string app] in E'.
  injection E' as E'. apply app_sep_inj in E'; [|exact F1|exact F1'].
  destruct E' as [_ E']. injection E' as E'.
  apply app_sep_inj in E'; [|exact F2|exact F2']. apply E'.
Qed.

(** A client's proof is accepted by the sessions of one server nonce only. *)
Theorem proof_once ec es es' sc ss ss' a plus splus splus' input script1 st1 m1 sc1 evs1 m2 script2
    st2 m3 sc2 m1a sca sta m2a ssa m3a scb ra m4a ssb m1b scc stb m2b ssc m3b scd rb m4b ssd p64 :
  s_mech sc = XScramC a (Some (ScInitial plus)) -> polite ec -> no_zero script1 -> no_zero script2 ->
  step ec sc input script1 = (Ok st1, m1, sc1) -> new_events sc sc1 evs1 -> text_answers evs1 ->
  step ec sc1 (Some m2) script2 = (Ok st2, m3, sc2) -> ends_in_proof m3 p64 ->
  crypto_ok es -> same_crypto ec es -> crypto_ok es' -> same_crypto ec es' ->
  s_mech ss = XScramS a (Some (SsClientFirst splus)) -> no_zero sca ->
  step es ss (Some m1a) sca = (Ok sta, m2a, ssa) ->
  step es ssa (Some m3a) scb = (ra, m4a, ssb) -> ends_in_proof m3a p64 -> vouches ssa ssb m4a ->
  s_mech ss' = XScramS a (Some (SsClientFirst splus')) -> no_zero scc ->
  step es' ss' (Some m1b) scc = (Ok stb, m2b, ssc) ->
  step es' ssc (Some m3b) scd = (rb, m4b, ssd) -> ends_in_proof m3b p64 -> vouches ssc ssd m4b ->
  exists v va vb ck sk evs2 salt n evsa evsb spa spb,
    client_saw ec a v ck m1 m2 m3 /\
    new_events sc1 sc2 evs2 /\ keys_from ec a evs2 salt n ck sk /\
    new_events ss ssa evsa /\ answers PScramStoredPassword evsa = [spa] /\
    new_events ss' ssc evsb /\ answers PScramStoredPassword evsb = [spb] /\
    m2a = view_challenge va /\ m2b = view_challenge vb /\
    (st_stored_key spa = e_hash es a ck -> st_stored_key spb = e_hash es a ck ->
     (nonce_from es (s_rng ss) = nonce_from es' (s_rng ss') /\ m2a = m2b) \/
     exists y, (y = va \/ y = vb) /\
       (hmac_collision es a (e_hash es a ck) (view_message v) (e_hash es a ck) (view_message y) \/
        hash_collision es a (key_seen es a ck v y) ck)).
Proof.
  intros Em Hp Hz1 Hz2 H1 Hn T H2 P0 Hc Hs Hc' Hs' Ea Hza A1 A2 Pa Va Eb Hzb B1 B2 Pb Vb.
  destruct (client_view _ _ _ _ _ _ _ _ _ _ _ _ _ _ _ Em Hp Hz1 Hz2 H1 Hn T H2)
    as [v [ck [sk [evs2 [salt [n [Cs [Sv [Nv [_ [N2 [K [Lp _]]]]]]]]]]]]].
  assert (Ep : p64 = encode (client_proof ec a ck (view_message v))).
  { apply (last_proof_unique m3 _ _ P0). destruct Cs as [_ [_ E]]. exists (view_final v).
    split; [exact E|apply encode_free]. }
  assert (Each : forall e s splus m1a sca sta m2a sa m3a scb ra m4a sb,
    crypto_ok e -> same_crypto ec e ->
    s_mech s = XScramS a (Some (SsClientFirst splus)) -> no_zero sca ->
    step e s (Some m1a) sca = (Ok sta, m2a, sa) ->
    step e sa (Some m3a) scb = (ra, m4a, sb) -> ends_in_proof m3a p64 -> vouches sa sb m4a ->
    exists va evsa sp, v_server_nonce va = nonce_from e (s_rng s) /\
      new_events s sa evsa /\ answers PScramStoredPassword evsa = [sp] /\ m2a = view_challenge va /\
      (st_stored_key sp = e_hash es a ck ->
       v = va \/ hmac_collision es a (e_hash es a ck) (view_message v) (e_hash es a ck) (view_message va) \/
       hash_collision es a (key_seen es a ck v va) ck)).
  { clear -Sv Lp Ep Hs. intros e s splus m1a sca sta m2a sa m3a scb ra m4a sb Hc He Em Hz H1 H2 Hp Hv.
    destruct (server_view _ _ _ _ _ _ _ _ _ _ _ _ _ _ Em Hc Hz H1 H2 Hv)
      as [va [two [t [q64 [exts [evs [sp [P [rest [Ss [Sv' [Nv' [Ev [Ea [HP [Hprf _]]]]]]]]]]]]]]]].
    assert (q64 = p64) as ->.
    { apply (last_proof_unique m3a); [|exact Hp]. destruct Ss as [_ [_ Hf]].
      exact (fields_end_in_proof _ _ _ _ _ Hf). }
    exists va, evs, sp. do 3 (split; [assumption|]). split; [apply Ss|].
    subst p64. pose proof (full_proof_value _ _ _ Lp HP) as ->.
    destruct Hs as [Q1 [Q2 _]], He as [R1 [R2 _]].
    intros Ek. rewrite <- Q1, R1 in Ek. rewrite Ek in *.
    assert (Ec : client_proof ec a ck (view_message v) = client_proof e a ck (view_message v)).
    { unfold client_proof. rewrite R1, R2. reflexivity. }
    rewrite Ec in Lp, Hprf.
    destruct (proof_moved _ _ _ _ _ Hc Lp Hprf) as [E|[[E E']|[E E']]].
    - left. exact (views_signed _ _ Sv Sv' E).
    - right. left. split; [exact E|]. rewrite <- !Q1, <- !Q2, !R1, !R2. exact E'.
    - right. right. unfold hash_collision, key_seen, client_proof in *.
      rewrite <- !Q1, <- !Q2, !R1, !R2. split; assumption. }
  destruct (Each _ _ _ _ _ _ _ _ _ _ _ _ _ Hc Hs Ea Hza A1 A2 Pa Va)
    as [va [evsa [spa [Na [Eva [Ansa [Ma Ka]]]]]]].
  destruct (Each _ _ _ _ _ _ _ _ _ _ _ _ _ Hc' Hs' Eb Hzb B1 B2 Pb Vb)
    as [vb [evsb [spb [Nb [Evb [Ansb [Mb Kb]]]]]]].
  exists v, va, vb, ck, sk, evs2, salt, n, evsa, evsb, spa, spb.
  do 9 (split; [assumption|]). intros Ka' Kb'.
  destruct (Ka Ka') as [E|E]; [|right; exists va; split; [left; reflexivity|exact E]].
  destruct (Kb Kb') as [E'|E']; [|right; exists vb; split; [right; reflexivity|exact E']].
  left. subst va vb. split; [congruence|congruence].
Qed.

Theorem replay_refused e s s' a plus plus' m1 sc1 sc1' st st' out out' s1 s1' m3
    sc2 sc2' r r' o o' s2 s2' :
  s_mech s = XScramS a (Some (SsClientFirst plus)) -> no_zero sc1 ->
  s_mech s' = XScramS a (Some (SsClientFirst plus')) -> no_zero sc1' -> crypto_ok e ->
  step e s (Some m1) sc1 = (Ok st, out, s1) -> step e s1 (Some m3) sc2 = (r, o, s2) ->
  vouches s1 s2 o ->
  step e s' (Some m1) sc1' = (Ok st', out', s1') -> step e s1' (Some m3) sc2' = (r', o', s2') ->
  nonce_from e (s_rng s) <> nonce_from e (s_rng s') ->
  ~ vouches s1' s2' o'.
Proof.
  intros Em Hz Em' Hz' Hc H1 H2 V H1' H2' Hne V'. apply Hne.
  exact (final_once _ _ _ _ _ _ _ _ _ _ _ _ _ _ _ _ _ _ _ _ _ _ _ _ _ _ _
    Em Hc Hz Em' Hc Hz' H1 H1' H2 H2' V V').
Qed.

(** Equal views: the server-first message arrived as it was sent, and the client's messages
    arrived unchanged but for what the server ignores. *)
Theorem same_messages e a v ck m1 m2' m3 two t p64 exts m1' m2 m3' :
  client_saw e a v ck m1 m2' m3 -> server_saw v two t p64 exts m1' m2 m3' ->
  m2' = m2 /\
  (t = [] -> (v_authzid v <> None -> two = lit "a=") -> m1' = m1) /\
  (exts = [] -> ends_in_proof m3 p64 -> m3' = m3).
Proof.
  intros [E1 [E2 E3]] [[F1 _] [F2 F3]]. split; [congruence|]. split.
  - intros -> Ht. rewrite F1, E1. unfold gs2_text, view_first. rewrite <- !app_assoc, app_nil_r.
    destruct (v_authzid v); [|reflexivity]. rewrite Ht by discriminate. rewrite <- !app_assoc. reflexivity.
  - intros -> Hp.
    assert (p64 = encode (client_proof e a ck (view_message v))) as ->.
    { apply (last_proof_unique m3 _ _ Hp). exists (view_final v). split; [exact E3|apply encode_free]. }
    destruct F3 as [F3 _]. rewrite F3, E3. reflexivity.
Qed.
