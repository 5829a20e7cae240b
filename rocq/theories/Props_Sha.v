(** Property theorems about SCRAM with the hash functions in use. *)
From Coq Require Import Lia.
From Verif Require Import Bytes Utf8 Types World CallbackSpec Base64 Num Simple ScramParser Scram Session
  Registry Spec_Simple Spec_Wire Spec_OAuth Spec_ScramText Spec_Scram Sha Spec_Rfc ExampleEnv ExampleScram
  Proof_Sha.

(** ** C72 *)

(** The functions have the sizes the other theorems assume, and PBKDF2 with the output size of
    the hash is Hi of RFC 5802. *)
Theorem C72_functions : forall e,
  crypto_ok (with_crypto e) /\
  forall a p salt n, e_pbkdf2 (with_crypto e) a p salt n = rfc_hi (e_hmac (with_crypto e) a) p salt n.
Proof. exact crypto_standard. Qed.
Print Assumptions C72_functions.

(** FIPS 180-4, RFC 2104, 4231 and 6070 test vectors. *)
Definition hex_digit (n : N) : byte := nth (N.to_nat n) (lit "0123456789abcdef") zero.
Definition hex (b : bytes) : bytes :=
  flat_map (fun c => [hex_digit (N_of_ascii c / 16); hex_digit (N_of_ascii c mod 16)]) b.
Example C72_functions_example :
  hex (hash SHA1 (lit "abc")) = lit "a9993e364706816aba3e25717850c26c9cd0d89d" /\
  hex (hash SHA1 (lit "abcdbcdecdefdefgefghfghighijhijkijkljklmklmnlmnomnopnopq"))
    = lit "84983e441c3bd26ebaae4aa1f95129e5e54670f1" /\
  hex (hash SHA256 (lit "abc"))
    = lit "ba7816bf8f01cfea414140de5dae2223b00361a396177a9cb410ff61f20015ad" /\
  hex (hash SHA256 (lit "abcdbcdecdefdefgefghfghighijhijkijkljklmklmnlmnomnopnopq"))
    = lit "248d6a61d20638b8e5c026930c3e6039a33ce45964ff2167f6ecedd419db06c1" /\
  hex (hash SHA512 (lit "abc"))
    = lit "ddaf35a193617abacc417349ae20413112e6fa4e89a97ea20a9eeee64b55d39a2192992a274fc1a836ba3c23a3feebbd454d4423643ce80e2a9ac94fa54ca49f" /\
  hex (hmac SHA256 (lit "Jefe") (lit "what do ya want for nothing?"))
    = lit "5bdcc146bf60754e6a042426089575c75a003f089d2739839dec58b964ec3843" /\
  hex (hmac SHA256 (repeat (chr 170) 131)
         (lit "Test Using Larger Than Block-Size Key - Hash Key First"))
    = lit "60e431591ee0b67f0d8a26aacbf5b77f8e0bc6213728c5140546040f0ee37f54" /\
  hex (pbkdf2 SHA1 (lit "password") (lit "salt") 1) = lit "0c60c80f961f0e71f3a9b524af6012062fe037a6" /\
  hex (pbkdf2 SHA1 (lit "password") (lit "salt") 2) = lit "ea6c014dc72d6f8ccd1ed92ace1d41f0d8de8957".
Proof. vm_compute. repeat split. Qed.

(** With the keys of the password "pencil" and the nonces given there, the client's and the
    server's messages are those of the exchange in RFC 5802 section 5. *)
Definition rfc_ck : bytes := map chr
  [226; 52; 196; 123; 246; 195; 102; 150; 221; 109; 133; 43; 153; 170; 162; 186; 38; 85; 87; 40]%N.
Definition rfc_sk : bytes := map chr
  [15; 224; 146; 88; 179; 172; 133; 43; 165; 2; 204; 98; 186; 144; 62; 170; 205; 191; 125; 49]%N.
Fixpoint index_of (c : byte) (l : bytes) : N :=
  match l with [] => 0 | x :: r => if Ascii.eqb c x then 0 else N.succ (index_of c r) end%N.
Definition rfc_env : env :=
  let e := ex_env (fun _ => ex_cb [mk_entry PAuthId (lit "user");
                                   mk_entry PScramCachedPassword (mk_cached rfc_ck rfc_sk)])
             no_vcb no_chan in
  with_crypto
    (mk_env (e_sd e) (e_cb e) (e_vcb e) (e_vtag e) (e_chan e)
       (fun n => index_of (nth n (lit "fyko+d2lbbFgONRv9qkxdawL") zero) printable)
       (e_hash e) (e_hmac e) (e_pbkdf2 e) (e_saslprep e) (e_json_to e) (e_json_from e)
       (e_gss_name e) (e_gss_cred e) (e_gss_step e) (e_gss_complete e) (e_gss_flags e)
       (e_gss_wrap e) (e_gss_unwrap e)).
Definition rfc_server : session :=
  ex_at (XScramS SHA1 (Some (SsClientFinal
    (Some (mk_fi (lit "fyko+d2lbbFgONRv9qkxdawL") (lit "3rfcNHYJY1ZVvWVs7j") (lit "n,,")
       (lit "user") None (lit "QSXCR+Q6sek8bf92") (lit "4096") (hash SHA1 rfc_ck) rfc_sk))))).
Example C72_rfc5802 :
  let r1 := step rfc_env (ex_c ClientNoSupport) None [] in
  let r2 := step rfc_env (ses_of r1) (Some (lit
    "r=fyko+d2lbbFgONRv9qkxdawL3rfcNHYJY1ZVvWVs7j,s=QSXCR+Q6sek8bf92,i=4096")) [] in
  let r3 := step rfc_env (ses_of r2) (Some (lit "v=rmF9pqV8S7suAoZWja4dJRkFsKQ=")) [] in
  fst r1 = (Ok Running, lit "n,,n=user,r=fyko+d2lbbFgONRv9qkxdawL") /\
  fst r2 = (Ok Running, lit
    "c=biws,r=fyko+d2lbbFgONRv9qkxdawL3rfcNHYJY1ZVvWVs7j,p=v0X8v3Bz2T0CJGbJQyF0X+HI4Ts=") /\
  fst r3 = (Ok (Finished false), []) /\
  fst (step rfc_env rfc_server (Some (lit
    "c=biws,r=fyko+d2lbbFgONRv9qkxdawL3rfcNHYJY1ZVvWVs7j,p=v0X8v3Bz2T0CJGbJQyF0X+HI4Ts=")) [])
  = (Ok (Finished true), lit "v=rmF9pqV8S7suAoZWja4dJRkFsKQ=").
Proof. vm_compute. repeat split. Qed.

(** A user whose keys were stored for the password the client knows is accepted. Missing for the
    full property: nothing prepares user names and passwords, so that the keys have to be those
    of the password as it is typed (C72_password_refuted, C72_name_refuted). *)
Theorem C72_accepted_partial : forall ec es sc ss a plus splus input f data user uesc z zesc p sp,
  s_mech sc = XScramC a (Some (ScInitial plus)) ->
  s_mech ss = XScramS a (Some (SsClientFirst splus)) ->
  client_can_bind (with_crypto ec) plus f data -> server_can_bind (with_crypto es) f data ->
  legal_flag f -> (f = CbSupportedNotUsed -> splus = false) ->
  provides (with_crypto ec) PAuthId user -> escape user = Ok uesc -> utf8_valid user = true ->
  answers_with (with_crypto ec) PAuthzId z -> escaped z zesc ->
  (forall x, z = Some x -> utf8_valid x = true) ->
  looks_up (with_crypto es) uesc zesc (Some sp) -> rfc_stored a p sp ->
  (1 <= st_iterations sp <= u32_max)%N ->
  withholds (with_crypto ec) PScramCachedPassword -> withholds (with_crypto ec) PSaltedPassword ->
  provides (with_crypto ec) PPassword p ->
  validates_user (with_crypto es) uesc zesc ->
  exists m1 m2 m3 m4 sc1 sc2 sc3 ss1 ss2,
    step (with_crypto ec) sc input [] = (Ok Running, m1, sc1) /\
    step (with_crypto es) ss (Some m1) [] = (Ok Running, m2, ss1) /\
    step (with_crypto ec) sc1 (Some m2) [] = (Ok Running, m3, sc2) /\
    step (with_crypto es) ss1 (Some m3) [] = (Ok (Finished true), m4, ss2) /\
    step (with_crypto ec) sc2 (Some m4) [] = (Ok (Finished false), [], sc3) /\
    exists evs c, new_events ss ss2 evs /\ validations evs = [c] /\ offers_scram c uesc zesc.
Proof. exact rfc_exchange. Qed.
Print Assumptions C72_accepted_partial.

(** The same password followed by zero octets is accepted, too; and so is the hash of a password
    longer than a block of the hash function. *)
Theorem C72_zeros : forall ec es sc ss a plus splus input f data user uesc z zesc p k sp,
  s_mech sc = XScramC a (Some (ScInitial plus)) ->
  s_mech ss = XScramS a (Some (SsClientFirst splus)) ->
  client_can_bind (with_crypto ec) plus f data -> server_can_bind (with_crypto es) f data ->
  legal_flag f -> (f = CbSupportedNotUsed -> splus = false) ->
  provides (with_crypto ec) PAuthId user -> escape user = Ok uesc -> utf8_valid user = true ->
  answers_with (with_crypto ec) PAuthzId z -> escaped z zesc ->
  (forall x, z = Some x -> utf8_valid x = true) ->
  looks_up (with_crypto es) uesc zesc (Some sp) -> rfc_stored a p sp ->
  (1 <= st_iterations sp <= u32_max)%N ->
  withholds (with_crypto ec) PScramCachedPassword -> withholds (with_crypto ec) PSaltedPassword ->
  provides (with_crypto ec) PPassword (p ++ repeat zero k) -> length p + k <= block_size a ->
  validates_user (with_crypto es) uesc zesc ->
  exists m1 m2 m3 m4 sc1 sc2 sc3 ss1 ss2,
    step (with_crypto ec) sc input [] = (Ok Running, m1, sc1) /\
    step (with_crypto es) ss (Some m1) [] = (Ok Running, m2, ss1) /\
    step (with_crypto ec) sc1 (Some m2) [] = (Ok Running, m3, sc2) /\
    step (with_crypto es) ss1 (Some m3) [] = (Ok (Finished true), m4, ss2) /\
    step (with_crypto ec) sc2 (Some m4) [] = (Ok (Finished false), [], sc3) /\
    exists evs c, new_events ss ss2 evs /\ validations evs = [c] /\ offers_scram c uesc zesc.
Proof. exact rfc_exchange_zeros. Qed.
Print Assumptions C72_zeros.
Theorem C72_long : forall ec es sc ss a plus splus input f data user uesc z zesc p sp,
  s_mech sc = XScramC a (Some (ScInitial plus)) ->
  s_mech ss = XScramS a (Some (SsClientFirst splus)) ->
  client_can_bind (with_crypto ec) plus f data -> server_can_bind (with_crypto es) f data ->
  legal_flag f -> (f = CbSupportedNotUsed -> splus = false) ->
  provides (with_crypto ec) PAuthId user -> escape user = Ok uesc -> utf8_valid user = true ->
  answers_with (with_crypto ec) PAuthzId z -> escaped z zesc ->
  (forall x, z = Some x -> utf8_valid x = true) ->
  looks_up (with_crypto es) uesc zesc (Some sp) -> rfc_stored a p sp ->
  (1 <= st_iterations sp <= u32_max)%N ->
  withholds (with_crypto ec) PScramCachedPassword -> withholds (with_crypto ec) PSaltedPassword ->
  provides (with_crypto ec) PPassword (hash a p) -> block_size a < length p ->
  validates_user (with_crypto es) uesc zesc ->
  exists m1 m2 m3 m4 sc1 sc2 sc3 ss1 ss2,
    step (with_crypto ec) sc input [] = (Ok Running, m1, sc1) /\
    step (with_crypto es) ss (Some m1) [] = (Ok Running, m2, ss1) /\
    step (with_crypto ec) sc1 (Some m2) [] = (Ok Running, m3, sc2) /\
    step (with_crypto es) ss1 (Some m3) [] = (Ok (Finished true), m4, ss2) /\
    step (with_crypto ec) sc2 (Some m4) [] = (Ok (Finished false), [], sc3) /\
    exists evs c, new_events ss ss2 evs /\ validations evs = [c] /\ offers_scram c uesc zesc.
Proof. exact rfc_exchange_long. Qed.
Print Assumptions C72_long.

(** ** What goes wrong without preparation *)

(** An application with a saslprep that drops soft hyphens (U+00AD), as RFC 4013 does. *)
Fixpoint drop_soft (x : bytes) : bytes :=
  match x with
  | a :: r =>
      match r with
      | b :: r' => if beq a (chr 194) && beq b (chr 173) then drop_soft r' else a :: drop_soft r
      | [] => [a]
      end
  | [] => []
  end.
Definition soft (x y : string) : bytes := lit x ++ [chr 194; chr 173] ++ lit y.
Definition soft_env (entries : list entry) : env :=
  let e := ex_env (fun _ => ex_cb entries) no_vcb no_chan in
  mk_env (e_sd e) (e_cb e) (e_vcb e) (e_vtag e) (e_chan e) (e_rng e)
       (e_hash e) (e_hmac e) (e_pbkdf2 e) (fun x => Some (drop_soft x)) (e_json_to e) (e_json_from e)
       (e_gss_name e) (e_gss_cred e) (e_gss_step e) (e_gss_complete e) (e_gss_flags e)
       (e_gss_wrap e) (e_gss_unwrap e).
Definition soft_salted : bytes := Eval vm_compute in pbkdf2 SHA1 (lit "secret") (lit "salt") 1.
Definition soft_sp : stored := Eval vm_compute in
  mk_stored 1 (lit "salt") (hash SHA1 (hmac SHA1 soft_salted (lit "Client Key")))
            (hmac SHA1 soft_salted (lit "Server Key")).
Definition soft_cl : env :=
  soft_env [mk_entry PAuthId (lit "user"); mk_entry PPassword (soft "se" "cret")].
Definition soft_sv : env := soft_env [mk_entry PScramStoredPassword soft_sp].

Definition soft1 := Eval vm_compute in step (with_crypto soft_cl) (ex_c ClientNoSupport) None [].
Definition soft2 := Eval vm_compute in step (with_crypto soft_sv) (ex_s false) (Some (out_of soft1)) [].
Definition soft3 := Eval vm_compute in step (with_crypto soft_cl) (ses_of soft1) (Some (out_of soft2)) [].
Definition soft4 := Eval vm_compute in step (with_crypto soft_sv) (ses_of soft2) (Some (out_of soft3)) [].

(** The keys stored are those of the prepared password; the client is refused. *)
Theorem C72_password_refuted :
  ~ forall ec es sc ss a plus splus input f data user uesc z zesc p p' sp,
      s_mech sc = XScramC a (Some (ScInitial plus)) ->
      s_mech ss = XScramS a (Some (SsClientFirst splus)) ->
      client_can_bind (with_crypto ec) plus f data -> server_can_bind (with_crypto es) f data ->
      legal_flag f -> (f = CbSupportedNotUsed -> splus = false) ->
      provides (with_crypto ec) PAuthId user -> escape user = Ok uesc -> utf8_valid user = true ->
      answers_with (with_crypto ec) PAuthzId z -> escaped z zesc ->
      (forall x, z = Some x -> utf8_valid x = true) ->
      looks_up (with_crypto es) uesc zesc (Some sp) ->
      e_saslprep ec p = Some p' -> rfc_stored a p' sp ->
      (1 <= st_iterations sp <= u32_max)%N ->
      withholds (with_crypto ec) PScramCachedPassword -> withholds (with_crypto ec) PSaltedPassword ->
      provides (with_crypto ec) PPassword p ->
      validates_user (with_crypto es) uesc zesc ->
      exists m1 m2 m3 m4 sc1 sc2 sc3 ss1 ss2,
        step (with_crypto ec) sc input [] = (Ok Running, m1, sc1) /\
        step (with_crypto es) ss (Some m1) [] = (Ok Running, m2, ss1) /\
        step (with_crypto ec) sc1 (Some m2) [] = (Ok Running, m3, sc2) /\
        step (with_crypto es) ss1 (Some m3) [] = (Ok (Finished true), m4, ss2) /\
        step (with_crypto ec) sc2 (Some m4) [] = (Ok (Finished false), [], sc3).
Proof.
  intros H.
  assert (W : forall q, q <> PAuthId -> q <> PPassword -> withholds (with_crypto soft_cl) q).
  { intros q H1 H2 tr c. split; [simpl; repeat split|]. left.
    destruct q; try reflexivity; congruence. }
  destruct (H soft_cl soft_sv (ex_c ClientNoSupport) (ex_s false) SHA1 ClientNoSupport false None
              CbNotSupported [] (lit "user") (lit "user") None None (soft "se" "cret") (lit "secret")
              soft_sp)
    as [m1 [m2 [m3 [m4 [sc1 [sc2 [sc3 [ss1 [ss2 [E1 [E2 [E3 [E4 E5]]]]]]]]]]]]].
  - reflexivity.
  - reflexivity.
  - split; reflexivity.
  - reflexivity.
  - exact I.
  - discriminate.
  - intros tr c; simpl; repeat split.
  - reflexivity.
  - reflexivity.
  - apply W; discriminate.
  - reflexivity.
  - discriminate.
  - intros tr c _; simpl; repeat split.
  - reflexivity.
  - vm_compute. split; reflexivity.
  - split; vm_compute; discriminate.
  - apply W; discriminate.
  - apply W; discriminate.
  - intros tr c; simpl; repeat split.
  - intros tr c slot _. reflexivity.
  - assert (F1 : step (with_crypto soft_cl) (ex_c ClientNoSupport) None [] = soft1)
      by (vm_compute; reflexivity).
    rewrite F1 in E1. injection E1 as <- <-.
    assert (F2 : step (with_crypto soft_sv) (ex_s false) (Some (out_of soft1)) [] = soft2)
      by (vm_compute; reflexivity).
    change (step (with_crypto soft_sv) (ex_s false) (Some (out_of soft1)) [] = (Ok Running, m2, ss1)) in E2.
    rewrite F2 in E2. injection E2 as <- <-.
    assert (F3 : step (with_crypto soft_cl) (ses_of soft1) (Some (out_of soft2)) [] = soft3)
      by (vm_compute; reflexivity).
    change (step (with_crypto soft_cl) (ses_of soft1) (Some (out_of soft2)) [] = (Ok Running, m3, sc2)) in E3.
    rewrite F3 in E3. injection E3 as <- <-.
    assert (F4 : step (with_crypto soft_sv) (ses_of soft2) (Some (out_of soft3)) [] = soft4)
      by (vm_compute; reflexivity).
    change (step (with_crypto soft_sv) (ses_of soft2) (Some (out_of soft3)) []
      = (Ok (Finished true), m4, ss2)) in E4.
    rewrite F4 in E4. injection E4 as <- <-.
    apply (f_equal res_of) in E5. vm_compute in E5. discriminate E5.
Qed.
Print Assumptions C72_password_refuted.

(** With PLAIN the same password is validated as the prepared one. *)
Example C72_plain_example :
  let c := step soft_cl (ex_at XPlainC) None [] in
  let s := step soft_cl (ex_at XPlainS) (Some (out_of c)) [] in
  res_of c = Ok (Finished true) /\ res_of s = Ok (Finished false) /\
  s_trace (ses_of s) = [EvValidate (plain_provider (lit "user") [] (lit "secret"))].
Proof. vm_compute. repeat split. Qed.

(** The server does not look up the prepared name. *)
Theorem C72_name_refuted :
  ~ forall e s a plus m script r out s' evs f two z user user' cn t,
      s_mech s = XScramS a (Some (SsClientFirst plus)) ->
      client_first_fields m f two z user cn t -> prepared e user user' ->
      step e s (Some m) script = (r, out, s') -> new_events s s' evs -> contexts_name evs user' z.
Proof.
  intros H.
  set (m := lit "n,,n=" ++ soft "us" "er" ++ lit ",r=abc").
  destruct (step soft_sv (ex_s false) (Some m) []) as [[r out] s'] eqn:E.
  assert (N := H soft_sv (ex_s false) SHA1 false m [] r out s' (s_trace s') CbNotSupported
    (lit "a=") None (soft "us" "er") (lit "user") (lit "abc") [] eq_refl).
  assert (T : exists c rest, s_trace s' = EvRequest PScramStoredPassword c :: rest /\
    get_ref c PAuthId = Some (soft "us" "er")).
  { apply (f_equal ses_of) in E. cbn [ses_of snd] in E. rewrite <- E.
    vm_compute. do 2 eexists. split; reflexivity. }
  destruct T as [c [rest [T G]]]. specialize (N) as N'.
  destruct (N') with (c := c) as [G' _].
  - split; [reflexivity|]. split; [reflexivity|]. split; [exact I|].
    split; [repeat constructor; discriminate|]. split; [left; reflexivity|].
    unfold free. cbn. split; [intuition discriminate|]. split; [intuition discriminate|]. repeat split.
  - split; [reflexivity|discriminate].
  - exact E.
  - reflexivity.
  - left. exists PScramStoredPassword. rewrite T. left. reflexivity.
  - rewrite G in G'. vm_compute in G'. discriminate G'.
Qed.
Print Assumptions C72_name_refuted.

Example C72_example :
  rfc_stored SHA1 (lit "secret") soft_sp /\ (1 <= st_iterations soft_sp <= u32_max)%N /\
  looks_up (with_crypto soft_sv) (lit "user") None (Some soft_sp) /\
  provides (with_crypto soft_cl) PAuthId (lit "user") /\
  provides (with_crypto soft_cl) PPassword (soft "se" "cret") /\
  (forall q, q <> PAuthId -> q <> PPassword -> withholds (with_crypto soft_cl) q) /\
  length (lit "secret") + 3 <= block_size SHA1 /\
  (exists p, block_size SHA1 < length p /\ hash SHA1 p <> p).
Proof.
  split; [vm_compute; split; reflexivity|]. split; [split; vm_compute; discriminate|].
  split; [intros tr c _; simpl; repeat split|]. split; [intros tr c; simpl; repeat split|].
  split; [intros tr c; simpl; repeat split|].
  split. { intros q H1 H2 tr c. split; [simpl; repeat split|]. left.
    destruct q; try reflexivity; congruence. }
  split; [cbn; lia|]. exists (repeat "x"%char 65). split; [vm_compute; lia|].
  intros X. apply (f_equal (@length ascii)) in X. vm_compute in X. discriminate X.
Qed.
