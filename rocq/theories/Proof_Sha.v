(** The functions of Sha.v: sizes, and agreement with RFC 5802. *)
From Coq Require Import Lia.
From Verif Require Import Bytes Utf8 Types World CallbackSpec Base64 Num ScramParser Scram Session
  Spec_Simple Spec_Wire Spec_OAuth Spec_ScramText Spec_Scram Sha Spec_Rfc Proof_Wire Proof_ScramMain.

Lemma word_bytes_length k : forall x, length (word_bytes k x) = k.
Proof.
  induction k as [|k IH]; intros x; [reflexivity|].
  cbn [word_bytes]. rewrite app_length, IH. cbn. lia.
Qed.

Lemma hash_length a x : length (hash a x) = hlen a.
Proof.
  destruct a; unfold hash, sha1, sha2.
  - destruct (fold_left _ _ _) as [[[[? ?] ?] ?] ?]. cbn [map concat].
    rewrite !app_length, !word_bytes_length. reflexivity.
  - destruct (fold_left _ _ _) as [[[[[[[? ?] ?] ?] ?] ?] ?] ?]. cbn [map concat].
    rewrite !app_length, !word_bytes_length. reflexivity.
  - destruct (fold_left _ _ _) as [[[[[[[? ?] ?] ?] ?] ?] ?] ?]. cbn [map concat].
    rewrite !app_length, !word_bytes_length. reflexivity.
Qed.

Lemma hmac_length a k x : length (hmac a k x) = hlen a.
Proof. apply hash_length. Qed.

Lemma xor_zip_size x : forall y, length x = length y -> length (xor_zip x y) = length x.
Proof.
  induction x as [|b x IH]; destruct y as [|c y]; intros H; try discriminate; [reflexivity|].
  cbn. f_equal. apply IH. cbn in H. lia.
Qed.

(** The state of the iteration after [n] rounds. *)
Lemma pbkdf2_iter a p salt n :
  Nat.iter n (pbkdf2_round a p) (hmac a p (salt ++ int_one), hmac a p (salt ++ int_one))
  = (rfc_u (hmac a) p salt n,
     fold_left xor_text (map (rfc_u (hmac a) p salt) (seq 1 n)) (rfc_u (hmac a) p salt 0)).
Proof.
  induction n as [|n IH]; [reflexivity|].
  change (Nat.iter (S n) (pbkdf2_round a p) ?x) with (pbkdf2_round a p (Nat.iter n (pbkdf2_round a p) x)).
  rewrite IH, seq_S, map_app, fold_left_app. cbn [map fold_left].
  unfold pbkdf2_round. cbn [fst snd]. f_equal. apply xor_zip_text.
Qed.

Lemma pbkdf2_hi a p salt n : pbkdf2 a p salt n = rfc_hi (hmac a) p salt n.
Proof.
  unfold pbkdf2, rfc_hi. change (word_bytes 4 1) with int_one.
  rewrite N2Nat.inj_iter, pbkdf2_iter. cbn [snd]. rewrite N2Nat.inj_sub. reflexivity.
Qed.

Lemma pbkdf2_length a p salt n : length (pbkdf2 a p salt n) = hlen a.
Proof.
  unfold pbkdf2. rewrite N2Nat.inj_iter.
  assert (H : forall k s, length (snd s) = hlen a ->
    length (snd (Nat.iter k (pbkdf2_round a p) s)) = hlen a).
  { induction k as [|k IH]; intros s Hs; [exact Hs|].
    change (Nat.iter (S k) (pbkdf2_round a p) s) with (pbkdf2_round a p (Nat.iter k (pbkdf2_round a p) s)).
    unfold pbkdf2_round at 1. cbn [snd]. rewrite xor_zip_size; [apply IH; exact Hs|].
    rewrite IH by exact Hs. symmetry. apply hmac_length. }
  apply H. apply hmac_length.
Qed.

Lemma with_crypto_ok e : crypto_ok (with_crypto e).
Proof.
  split; [intros; apply hash_length|]. split; [intros; apply hmac_length|].
  intros. apply pbkdf2_length.
Qed.

Theorem crypto_standard e :
  crypto_ok (with_crypto e) /\
  forall a p salt n, e_pbkdf2 (with_crypto e) a p salt n = rfc_hi (e_hmac (with_crypto e) a) p salt n.
Proof. split; [apply with_crypto_ok|]. intros. apply pbkdf2_hi. Qed.

(** A key and the same key with zeros behind it. *)
Lemma hmac_key_zeros a k n : length k + n <= block_size a ->
  hmac_key a (k ++ repeat zero n) = hmac_key a k.
Proof.
  intros H. unfold hmac_key. rewrite app_length, repeat_length.
  replace (Nat.ltb (block_size a) (length k + n)) with false by (symmetry; apply Nat.ltb_ge; lia).
  replace (Nat.ltb (block_size a) (length k)) with false by (symmetry; apply Nat.ltb_ge; lia).
  rewrite app_length, repeat_length, <- app_assoc, <- repeat_app. do 2 f_equal. lia.
Qed.

Lemma hmac_zeros a k n m : length k + n <= block_size a ->
  hmac a (k ++ repeat zero n) m = hmac a k m.
Proof. intros H. unfold hmac. rewrite hmac_key_zeros by exact H. reflexivity. Qed.

Lemma pbkdf2_prf a p q salt n : (forall m, hmac a p m = hmac a q m) ->
  pbkdf2 a p salt n = pbkdf2 a q salt n.
Proof.
  intros H. rewrite !pbkdf2_hi. unfold rfc_hi.
  assert (U : forall k, rfc_u (hmac a) p salt k = rfc_u (hmac a) q salt k).
  { induction k as [|k IH]; cbn [rfc_u]; rewrite H; [reflexivity|]. rewrite IH. reflexivity. }
  rewrite U. f_equal. apply map_ext. exact U.
Qed.

Lemma pbkdf2_zeros a p k salt n : length p + k <= block_size a ->
  pbkdf2 a (p ++ repeat zero k) salt n = pbkdf2 a p salt n.
Proof. intros H. apply pbkdf2_prf. intros m. apply hmac_zeros, H. Qed.

(** A key longer than a block and its hash. *)
Lemma hmac_long a k m : block_size a < length k -> hmac a (hash a k) m = hmac a k m.
Proof.
  intros H. unfold hmac.
  assert (E : hmac_key a (hash a k) = hmac_key a k); [|rewrite E; reflexivity].
  unfold hmac_key.
  replace (Nat.ltb (block_size a) (length k)) with true by (symmetry; apply Nat.ltb_lt; lia).
  rewrite !hash_length.
  replace (Nat.ltb (block_size a) (hlen a)) with false; [rewrite ?hash_length; reflexivity|].
  symmetry. apply Nat.ltb_ge. destruct a; cbn; lia.
Qed.

Lemma pbkdf2_long a p salt n : block_size a < length p ->
  pbkdf2 a (hash a p) salt n = pbkdf2 a p salt n.
Proof. intros H. apply pbkdf2_prf. intros m. apply hmac_long, H. Qed.

(** * Complete exchanges *)

(** Client and server with the functions in use; the client knows [q], the server has stored the
    keys of [p]. *)
Lemma exchange_complete ec es sc ss a plus splus input f data user uesc z zesc p q sp :
  s_mech sc = XScramC a (Some (ScInitial plus)) ->
  s_mech ss = XScramS a (Some (SsClientFirst splus)) ->
  client_can_bind (with_crypto ec) plus f data -> server_can_bind (with_crypto es) f data ->
  legal_flag f -> (f = CbSupportedNotUsed -> splus = false) ->
  provides (with_crypto ec) PAuthId user -> escape user = Ok uesc -> utf8_valid user = true ->
  answers_with (with_crypto ec) PAuthzId z -> escaped z zesc ->
  (forall x, z = Some x -> utf8_valid x = true) ->
  looks_up (with_crypto es) uesc zesc (Some sp) -> rfc_stored a p sp ->
  (1 <= st_iterations sp <= u32_max)%N ->
  withholds (with_crypto ec) PScramCachedPassword -> withholds (with_crypto ec) PSaltedPassword ->
  provides (with_crypto ec) PPassword q -> (forall m, hmac a q m = hmac a p m) ->
  validates_user (with_crypto es) uesc zesc ->
  exists m1 m2 m3 m4 sc1 sc2 sc3 ss1 ss2,
    step (with_crypto ec) sc input [] = (Ok Running, m1, sc1) /\
    step (with_crypto es) ss (Some m1) [] = (Ok Running, m2, ss1) /\
    step (with_crypto ec) sc1 (Some m2) [] = (Ok Running, m3, sc2) /\
    step (with_crypto es) ss1 (Some m3) [] = (Ok (Finished true), m4, ss2) /\
    step (with_crypto ec) sc2 (Some m4) [] = (Ok (Finished false), [], sc3) /\
    exists evs c, new_events ss ss2 evs /\ validations evs = [c] /\ offers_scram c uesc zesc.
Proof.
  intros Hc Hs Cb Sb Lf Hf Pu Eu Vu Az Ez Vz Lu Rs Hi Wc Ws Pp Hq Va.
  eapply scram_complete with (p := q) (sp := sp); try eassumption.
  - apply with_crypto_ok.
  - repeat split; reflexivity.
  - unfold stored_for, rfc_stored in *. cbn [e_pbkdf2 e_hash with_crypto].
    unfold client_key_of, server_key_of. cbn [e_hmac with_crypto].
    rewrite (pbkdf2_prf a q p _ _ Hq), pbkdf2_hi. exact Rs.
  - right. right. auto.
Qed.

Theorem rfc_exchange ec es sc ss a plus splus input f data user uesc z zesc p sp :
  s_mech sc = XScramC a (Some (ScInitial plus)) ->
  s_mech ss = XScramS a (Some (SsClientFirst splus)) ->
  client_can_bind (with_crypto ec) plus f data -> server_can_bind (with_crypto es) f data ->
  legal_flag f -> (f = CbSupportedNotUsed -> splus = false) ->
  provides (with_crypto ec) PAuthId user -> escape user = Ok uesc -> utf8_valid user = true ->
  answers_with (with_crypto ec) PAuthzId z -> escaped z zesc ->
  (forall x, z = Some x -> utf8_valid x = true) ->
  looks_up (with_crypto es) uesc zesc (Some sp) -> rfc_stored a p sp ->
  (1 <= st_iterations sp <= u32_max)%N ->
  withholds (with_crypto ec) PScramCachedPassword -> withholds (with_crypto ec) PSaltedPassword ->
  provides (with_crypto ec) PPassword p ->
  validates_user (with_crypto es) uesc zesc ->
  exists m1 m2 m3 m4 sc1 sc2 sc3 ss1 ss2,
    step (with_crypto ec) sc input [] = (Ok Running, m1, sc1) /\
    step (with_crypto es) ss (Some m1) [] = (Ok Running, m2, ss1) /\
    step (with_crypto ec) sc1 (Some m2) [] = (Ok Running, m3, sc2) /\
    step (with_crypto es) ss1 (Some m3) [] = (Ok (Finished true), m4, ss2) /\
    step (with_crypto ec) sc2 (Some m4) [] = (Ok (Finished false), [], sc3) /\
    exists evs c, new_events ss ss2 evs /\ validations evs = [c] /\ offers_scram c uesc zesc.
Proof. intros. eapply exchange_complete; try eassumption. reflexivity. Qed.

Theorem rfc_exchange_zeros ec es sc ss a plus splus input f data user uesc z zesc p k sp :
  s_mech sc = XScramC a (Some (ScInitial plus)) ->
  s_mech ss = XScramS a (Some (SsClientFirst splus)) ->
  client_can_bind (with_crypto ec) plus f data -> server_can_bind (with_crypto es) f data ->
  legal_flag f -> (f = CbSupportedNotUsed -> splus = false) ->
  provides (with_crypto ec) PAuthId user -> escape user = Ok uesc -> utf8_valid user = true ->
  answers_with (with_crypto ec) PAuthzId z -> escaped z zesc ->
  (forall x, z = Some x -> utf8_valid x = true) ->
  looks_up (with_crypto es) uesc zesc (Some sp) -> rfc_stored a p sp ->
  (1 <= st_iterations sp <= u32_max)%N ->
  withholds (with_crypto ec) PScramCachedPassword -> withholds (with_crypto ec) PSaltedPassword ->
  provides (with_crypto ec) PPassword (p ++ repeat zero k) -> length p + k <= block_size a ->
  validates_user (with_crypto es) uesc zesc ->
  exists m1 m2 m3 m4 sc1 sc2 sc3 ss1 ss2,
    step (with_crypto ec) sc input [] = (Ok Running, m1, sc1) /\
    step (with_crypto es) ss (Some m1) [] = (Ok Running, m2, ss1) /\
    step (with_crypto ec) sc1 (Some m2) [] = (Ok Running, m3, sc2) /\
    step (with_crypto es) ss1 (Some m3) [] = (Ok (Finished true), m4, ss2) /\
    step (with_crypto ec) sc2 (Some m4) [] = (Ok (Finished false), [], sc3) /\
    exists evs c, new_events ss ss2 evs /\ validations evs = [c] /\ offers_scram c uesc zesc.
Proof. intros. eapply exchange_complete; try eassumption. intros m. apply hmac_zeros. assumption. Qed.

Theorem rfc_exchange_long ec es sc ss a plus splus input f data user uesc z zesc p sp :
  s_mech sc = XScramC a (Some (ScInitial plus)) ->
  s_mech ss = XScramS a (Some (SsClientFirst splus)) ->
  client_can_bind (with_crypto ec) plus f data -> server_can_bind (with_crypto es) f data ->
  legal_flag f -> (f = CbSupportedNotUsed -> splus = false) ->
  provides (with_crypto ec) PAuthId user -> escape user = Ok uesc -> utf8_valid user = true ->
  answers_with (with_crypto ec) PAuthzId z -> escaped z zesc ->
  (forall x, z = Some x -> utf8_valid x = true) ->
  looks_up (with_crypto es) uesc zesc (Some sp) -> rfc_stored a p sp ->
  (1 <= st_iterations sp <= u32_max)%N ->
  withholds (with_crypto ec) PScramCachedPassword -> withholds (with_crypto ec) PSaltedPassword ->
  provides (with_crypto ec) PPassword (hash a p) -> block_size a < length p ->
  validates_user (with_crypto es) uesc zesc ->
  exists m1 m2 m3 m4 sc1 sc2 sc3 ss1 ss2,
    step (with_crypto ec) sc input [] = (Ok Running, m1, sc1) /\
    step (with_crypto es) ss (Some m1) [] = (Ok Running, m2, ss1) /\
    step (with_crypto ec) sc1 (Some m2) [] = (Ok Running, m3, sc2) /\
    step (with_crypto es) ss1 (Some m3) [] = (Ok (Finished true), m4, ss2) /\
    step (with_crypto ec) sc2 (Some m4) [] = (Ok (Finished false), [], sc3) /\
    exists evs c, new_events ss ss2 evs /\ validations evs = [c] /\ offers_scram c uesc zesc.
Proof. intros. eapply exchange_complete; try eassumption. intros m. apply hmac_long. assumption. Qed.
