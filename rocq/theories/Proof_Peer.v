(** Lemmas for C92: SCRAM with peers that follow RFC 5802. *)
From Coq Require Import NArith Lia.
From Verif Require Import Bytes BytesFacts Utf8 Types World CallbackSpec Base64 Base64Facts Num NumFacts OAuth ScramParser Scram Session WorldFacts MonadFacts Frame
  Spec_Wire Spec_Simple Spec_OAuth Spec_ScramText Spec_Scram Spec_Grammar Spec_Peer Proof_Wire Proof_Utf8 Proof_Simple Proof_OAuth Proof_ScramText Proof_Scram
  Proof_ScramRun Proof_ScramMain Proof_ScramErrors Proof_ScramEnd Proof_Agree Proof_Grammar.

Lemma grammar_fields m f z user nonce exts : is_client_first m f z user nonce exts ->
  client_first_fields m f (lit "a=") z user nonce (extensions_text exts).
Proof.
  intros (-> & Lf & Lz & Lu & [_ Ln] & _). destruct (name_valid _ Lu) as [Uu Fu].
  split; [unfold gs2_text; rewrite <- !app_assoc; reflexivity|]. split; [reflexivity|].
  split; [exact Lf|]. split; [exact Ln|]. split; [apply exts_tail|].
  split; [destruct z as [z|]; [|easy]; apply free_attr; [discriminate..|apply (name_valid z (Lz z eq_refl))]|].
  split; [exact Fu|]. split; [exact Uu|]. destruct z as [z|]; [|exact I]. apply (name_valid z (Lz z eq_refl)).
Qed.

Lemma iters_value iters n : decimal iters n -> (n <= u32_max)%N -> parse_u32 iters = Some n.
Proof. intros D H. apply fmt_u32_exact in D. subst. apply parse_fmt_u32. exact H. Qed.

Lemma nonce_joined cn e k : nonce_text cn -> nonce_text (cn ++ nonce_from e k).
Proof.
  intros [N L]. split; [destruct cn; [contradiction|discriminate]|].
  apply Forall_app. split; [exact L|apply nonce_from_legal].
Qed.

(** One message is read in one way only. *)
Lemma server_first_once m nonce salt n nonce' salt' n' exts' :
  is_server_first m nonce salt n [] -> is_server_first m nonce' salt' n' exts' ->
  nonce = nonce' /\ salt = salt' /\ n = n' /\ exts' = [].
Proof.
  intros H H'. destruct (reads_server_first _ _ _ _ H) as (iters & P & D).
  destruct exts' as [|x exts'].
  - destruct (reads_server_first _ _ _ _ H') as (iters' & P' & D'). rewrite P in P'.
    injection P' as -> E ->. rewrite <- !encode_rfc in E. apply (f_equal decode) in E.
    rewrite !decode_encode in E. injection E as ->. split; [reflexivity|]. split; [reflexivity|].
    split; [|reflexivity]. apply fmt_u32_exact in D. destruct D' as (_ & _ & V' & _).
    pose proof (fmt_u32_decimal n) as (_ & _ & V & _). rewrite <- D in V. congruence.
  - destruct (refuses_server_first _ _ _ _ _ _ H') as (b & P' & _). congruence.
Qed.

(** A client that follows RFC 5802. *)
Theorem accepts_rfc_client e s a plus f z user cn data p sp m1 :
  s_mech s = XScramS a (Some (SsClientFirst plus)) -> crypto_ok e ->
  (f = CbSupportedNotUsed -> plus = false) -> server_can_bind e f data ->
  looks_up e user z (Some sp) -> stored_for e a p sp -> (1 <= st_iterations sp <= u32_max)%N ->
  validates_user e user z ->
  is_client_first m1 f z user cn [] ->
  exists m2 s1 sn, step e s (Some m1) [] = (Ok Running, m2, s1) /\ sn <> [] /\
    is_server_first m2 (cn ++ sn) (st_salt sp) (st_iterations sp) [] /\
    forall m3, rfc_answer e a p (first_bare user cn) m2 (gs2_text f z ++ data) [] m3 ->
    exists m4 s2, step e s1 (Some m3) [] = (Ok (Finished true), m4, s2) /\
      is_verifier m4 (e_hmac e a (server_key_of e a (e_pbkdf2 e a p (st_salt sp) (st_iterations sp)))
        (rfc_auth_message (first_bare user cn) m2
          (final_bare (rfc_encode (gs2_text f z ++ data)) (cn ++ sn)))) [] /\
      exists evs c, new_events s s2 evs /\ validations evs = [c] /\ offers_scram c user z.
Proof.
  intros Em Hc Hy Hb Hl Hst Hi Hv H1. pose proof (grammar_fields _ _ _ _ _ _ H1) as Hf.
  assert (Hus : usable a sp).
  { destruct Hst as [K1 K2]. unfold usable. rewrite K1, K2. split; [apply Hc|].
    unfold server_key_of. apply Hc. }
  destruct (server_first_run e s a plus m1 f _ z user cn _ data (Some sp) Em Hf Hy Hb Hl)
    as [m2 [s1 [E1 [_ [Em2 W]]]]]; [intros x [= <-]; exact Hus|].
  set (sn := nonce_from e (s_rng s)) in *.
  assert (Ncn : nonce_text cn) by apply H1.
  assert (F : is_server_first m2 (cn ++ sn) (st_salt sp) (st_iterations sp) []).
  { exists (fmt_u32 (st_iterations sp)). rewrite Em2, encode_rfc. cbn [extensions_text map concat].
    rewrite app_nil_r. split; [reflexivity|]. split; [apply nonce_joined; exact Ncn|].
    split; [apply fmt_u32_decimal|]. split; [lia|constructor]. }
  exists m2, s1, sn. split; [exact E1|]. split; [apply nonce_from_nonempty|]. split; [exact F|].
  intros m3 (nonce & salt & n & sexts & F' & Hm3). cbv zeta in Hm3.
  destruct (server_first_once _ _ _ _ _ _ _ _ F F') as (<- & <- & <- & _).
  destruct Hm3 as (Em3 & _ & _). cbn [extensions_text map concat app] in Em3.
  pose proof (final_authenticates e e a cn sn (gs2_text f z ++ data) user p sp Hc
    (conj (fun _ _ => eq_refl) (conj (fun _ _ _ => eq_refl) (fun _ _ _ _ => eq_refl))) Hst
    (nonce_free _ Ncn) (nonce_from_free _ _)) as Ha. cbv zeta in Ha.
  unfold exchange_message in Ha. rewrite <- Em2, !encode_rfc in Ha. rewrite app_nil_r in Em3. rewrite <- Em3 in Ha.
  destruct (server_second_run e s1 a cn sn _ user z sp _ _ _ _ W Hc Hv Ha) as [s2 [E2 [_ [c [N2 O2]]]]].
  eexists _, s2. split; [exact E2|]. split.
  - unfold is_verifier, verifier_text. cbn [extensions_text map concat]. rewrite app_nil_r. split; [|constructor].
    unfold server_signature, exchange_message. rewrite <- Em2.
    destruct Hst as [_ K]. rewrite K, encode_rfc. reflexivity.
  - destruct (server_first_any _ _ _ _ _ _ _ _ _ Em E1)
      as [evs [f' [two' [z' [user' [cn' [t' [data' [_ [N1 [V1 _]]]]]]]]]]].
    exists (evs ++ [EvValidate c]), c. split; [|split; [|exact O2]].
    + unfold new_events in *. rewrite N2, N1, app_assoc. reflexivity.
    + rewrite validations_app, V1. reflexivity.
Qed.

Lemma value_of_name user uesc : escape user = Ok uesc -> utf8_valid user = true -> saslname uesc.
Proof.
  intros E V. pose proof (escape_utf8 _ _ E V) as U. pose proof (escape_no_comma _ _ E) as F.
  apply escape_flat in E. destruct E as (N & Z & ->). split.
  - split; [apply flat_nonempty; exact N|]. split; [apply utf8_exact; exact U|]. split; [exact F|].
    apply flat_no_zero. exact Z.
  - rewrite unescape_flat. discriminate.
Qed.

(** A server that follows RFC 5802. *)
Theorem accepts_rfc_server e s a plus input f data user uesc z zesc p :
  s_mech s = XScramC a (Some (ScInitial plus)) -> crypto_ok e ->
  client_can_bind e plus f data -> legal_flag f ->
  provides e PAuthId user -> escape user = Ok uesc -> utf8_valid user = true ->
  answers_with e PAuthzId z -> escaped z zesc -> (forall x, z = Some x -> utf8_valid x = true) ->
  exists m1 s1 cn, step e s input [] = (Ok Running, m1, s1) /\
    is_client_first m1 f zesc uesc cn [] /\
    forall sn salt n m2, sn <> [] -> is_server_first m2 (cn ++ sn) salt n [] -> (n <= u32_max)%N ->
    gives_keys e a p salt n ->
    exists m3 s2 am, step e s1 (Some m2) [] = (Ok Running, m3, s2) /\
      rfc_accepts e a p salt n (first_bare uesc cn) m2 (gs2_text f zesc ++ data) (cn ++ sn) m3 am /\
      forall m4, is_verifier m4 (e_hmac e a (server_key_of e a (e_pbkdf2 e a p salt n)) am) [] ->
      exists s3, step e s2 (Some m4) [] = (Ok (Finished false), [], s3).
Proof.
  intros Em Hc Hb Hlf Hu Eu Vu Hz Ez Vz.
  destruct (client_first_run e s a plus input f data user uesc z zesc Em Hb Hu Eu Hz Ez) as [s1 [E1 [W1 _]]].
  set (cn := nonce_from e (s_rng s)) in *.
  eexists _, s1, cn. split; [exact E1|]. split.
  { split; [cbn [extensions_text map concat]; rewrite app_nil_r; reflexivity|]. split; [exact Hlf|].
    split; [|split; [exact (value_of_name _ _ Eu Vu)|]].
    - intros x ->. destruct z as [z|]; [|contradiction]. exact (value_of_name _ _ Ez (Vz z eq_refl)).
    - split; [split; [apply nonce_from_nonempty|apply nonce_from_legal]|constructor]. }
  intros sn salt n m2 Hsn (iters & Em2 & Nn & D & N0 & _) Hn Hk.
  cbn [extensions_text map concat] in Em2. rewrite app_nil_r in Em2.
  assert (C : continues m2 cn sn (rfc_encode salt) salt iters n).
  { split; [exact Em2|]. split; [exact Hsn|]. split; [rewrite <- encode_rfc; apply decode_encode|].
    split; [apply iters_value; assumption|]. split; [exact N0|]. split; [apply nonce_free; exact Nn|].
    split; [apply rfc_free|exact (decimal_free _ _ D)]. }
  destruct (client_second_run e s1 a _ cn uesc m2 sn _ _ _ _ p W1 C Hc Hk) as [s2 [E2 [W2 _]]]. cbv zeta in E2, W2.
  unfold exchange_message in E2, W2. rewrite <- Em2, !encode_rfc in E2, W2.
  match type of W2 with client_expects _ _ (server_signature _ _ _ ?x) _ _ _ _ => set (am := x) in * end.
  rewrite ?encode_rfc in E2.
  eexists _, s2, am. split; [exact E2|]. split.
  - eexists _, []. split; [|split].
    + split; [cbn [extensions_text map concat app]; reflexivity|]. split; [exact Nn|constructor].
    + cbn [extensions_text map concat]. rewrite app_nil_r. reflexivity.
    + cbv zeta. unfold stored_key_of, client_proof. rewrite <- !xor_zip_text, xor_zip_cancel; [reflexivity|].
      destruct Hc as [_ [Hh _]]. unfold client_key_of. rewrite !Hh. reflexivity.
  - intros m4 (Em4 & _). cbn [extensions_text map concat] in Em4. rewrite app_nil_r in Em4.
    destruct (step e s2 (Some m4) []) as [[r5 o5] s3] eqn:E5.
    destruct (client_third _ _ _ _ _ _ _ _ _ _ _ _ _ W2 E5) as [-> [_ [[_ [-> _]]|[Hne _]]]].
    + exists s3. reflexivity.
    + exfalso. apply Hne. rewrite Em4, encode_rfc. reflexivity.
Qed.

Lemma exts_length exts : exts <> [] -> 0 < length (extensions_text exts).
Proof. destruct exts as [|x exts]; [contradiction|]. intros _. cbn. lia. Qed.

(** A client that follows RFC 5802 and sends extensions. *)
Theorem extended_rfc_client e s a plus f z user cn data p sp m1 exts1 exts3 :
  s_mech s = XScramS a (Some (SsClientFirst plus)) -> crypto_ok e ->
  (f = CbSupportedNotUsed -> plus = false) -> server_can_bind e f data ->
  looks_up e user z (Some sp) -> stored_for e a p sp -> (1 <= st_iterations sp <= u32_max)%N ->
  is_client_first m1 f z user cn exts1 -> exts1 <> [] \/ exts3 <> [] ->
  exists m2 s1, step e s (Some m1) [] = (Ok Running, m2, s1) /\
    forall m3, rfc_answer e a p (first_bare user cn ++ extensions_text exts1) m2 (gs2_text f z ++ data) exts3 m3 ->
    reports s1 (step e s1 (Some m3) []) (lit "invalid-proof") \/
    exists am am', am <> am' /\
      proves e a (st_stored_key sp) am'
        (client_proof e a (client_key_of e a (e_pbkdf2 e a p (st_salt sp) (st_iterations sp))) am).
Proof.
  intros Em Hc Hy Hb Hl Hst Hi H1 Hex. pose proof (grammar_fields _ _ _ _ _ _ H1) as Hf.
  assert (Hus : usable a sp).
  { destruct Hst as [K1 K2]. unfold usable. rewrite K1, K2. split; [apply Hc|].
    unfold server_key_of. apply Hc. }
  destruct (server_first_run e s a plus m1 f _ z user cn _ data (Some sp) Em Hf Hy Hb Hl)
    as [m2 [s1 [E1 [_ [Em2 W]]]]]; [intros x [= <-]; exact Hus|].
  set (sn := nonce_from e (s_rng s)) in *.
  assert (Ncn : nonce_text cn) by apply H1.
  assert (F : is_server_first m2 (cn ++ sn) (st_salt sp) (st_iterations sp) []).
  { exists (fmt_u32 (st_iterations sp)). rewrite Em2, encode_rfc. cbn [extensions_text map concat].
    rewrite app_nil_r. split; [reflexivity|]. split; [apply nonce_joined; exact Ncn|].
    split; [apply fmt_u32_decimal|]. split; [lia|constructor]. }
  exists m2, s1. split; [exact E1|]. intros m3 (nonce & salt & n & sexts & F' & Hm3). cbv zeta in Hm3.
  destruct (server_first_once _ _ _ _ _ _ _ _ F F') as (<- & <- & <- & _).
  set (ck := client_key_of e a (e_pbkdf2 e a p (st_salt sp) (st_iterations sp))) in *.
  set (am := rfc_auth_message (first_bare user cn ++ extensions_text exts1) m2
       (final_bare (rfc_encode (gs2_text f z ++ data)) (cn ++ sn) ++ extensions_text exts3)) in *.
  set (am' := exchange_message user cn sn (encode (st_salt sp)) (fmt_u32 (st_iterations sp))
       (rfc_encode (gs2_text f z ++ data))).
  destruct (bytes_eqb (e_hash e a (xor_text (client_proof e a ck am) (e_hmac e a (st_stored_key sp) am')))
              (st_stored_key sp)) eqn:Q.
  - right. exists am, am'. split; [|apply bytes_eqb_eq; exact Q].
    intros X. apply (f_equal (@length _)) in X. unfold am, am', exchange_message, rfc_auth_message in X.
    rewrite <- Em2 in X. rewrite !app_length in X.
    destruct Hex as [Hex|Hex]; apply exts_length in Hex; lia.
  - left. destruct Hm3 as (Em3 & _ & Fe).
    apply (proof_wrong e s1 a cn sn (gs2_text f z ++ data) user z sp m3 (rfc_encode (gs2_text f z ++ data))
             (rfc_encode (client_proof e a ck am)) exts3 (client_proof e a ck am)); auto.
    + split; [exact Em3|]. split; [apply rfc_free|].
      split; [apply nonce_free; apply nonce_joined; exact Ncn|]. split; [apply rfc_free|].
      revert Fe. apply Forall_impl. intros x (A & M & P). split; [apply attr_free; exact A|].
      split; [|split; assumption]. destruct A as (b & v & _ & _ & ->). cbn. lia.
    + rewrite <- encode_rfc. apply decode_encode.
    + rewrite <- encode_rfc. apply own_proof_value; [exact Hc|apply Hc].
    + intros P. apply bytes_eqb_eq in P. fold am' in P. congruence.
Qed.
