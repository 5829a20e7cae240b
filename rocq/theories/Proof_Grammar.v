(** Lemmas for C85: the parsers and the grammar of RFC 5802. *)
From Coq Require Import NArith Lia.
From Verif Require Import Bytes BytesFacts Utf8 Types World Base64 Num OAuth ScramParser Scram Session
  Spec_Wire Spec_OAuth Spec_ScramText Spec_Scram Spec_Grammar Proof_Wire Proof_Utf8 Proof_ScramText Proof_Scram Proof_ScramErrors Proof_Agree.

Lemma value_valid x : value_text x -> utf8_valid x = true /\ free ","%char x.
Proof. intros (_ & U & F & _). split; [apply utf8_exact; exact U|exact F]. Qed.
Lemma name_valid x : saslname x -> utf8_valid x = true /\ free ","%char x.
Proof. intros [V _]. apply value_valid. exact V. Qed.
Lemma exts_tail exts : tail_of_attributes (extensions_text exts).
Proof. destruct exts as [|x exts]; [left; reflexivity|right]. eexists. reflexivity. Qed.
Lemma attr_free x : attr_val x -> free ","%char x.
Proof.
  intros (a & v & L & V & ->). apply free_attr; [|discriminate|apply value_valid; exact V].
  intros ->. unfold letter in L. cbn in L. lia.
Qed.
Lemma rfc_free x : free ","%char (rfc_encode x).
Proof. rewrite <- encode_rfc. apply encode_free. Qed.
Lemma nonce_free x : nonce_text x -> free ","%char x.
Proof. intros [_ L]. apply nonce_no_comma. exact L. Qed.
Lemma decimal_free l n : decimal l n -> free ","%char l.
Proof.
  intros (_ & D & _) H. rewrite Forall_forall in D. specialize (D _ H). unfold decimal_digit in D. cbn in D. lia.
Qed.

Lemma reads_client_first m f z user nonce exts : is_client_first m f z user nonce exts ->
  client_first_parse m = Ok (mk_cf f z user nonce).
Proof.
  intros (-> & Lf & Lz & Lu & [_ Ln] & _).
  destruct (name_valid _ Lu) as [Uu Fu].
  replace (gs2_text f z ++ first_bare user nonce ++ extensions_text exts) with
    (flag_text f ++ lit "," ++ authzid_part (lit "a=") z ++ lit "," ++ first_bare user nonce ++ extensions_text exts)
    by (unfold gs2_text, authzid_part; rewrite <- !app_assoc; reflexivity).
  apply client_first_parse_text; try assumption; try reflexivity; try apply exts_tail.
  - destruct z as [z|]; [|easy]. destruct (name_valid z (Lz z eq_refl)) as [_ F].
    apply free_attr; [discriminate|discriminate|exact F].
  - destruct z as [z|]; [|easy]. apply (name_valid z (Lz z eq_refl)).
Qed.

Lemma reads_client_final m cb nonce proof exts : is_client_final m cb nonce proof exts ->
  client_final_parse m = Ok (mk_cl (rfc_encode cb) nonce (rfc_encode proof)).
Proof.
  intros (-> & Ln & Le). apply client_final_parse_exact. exists exts.
  split; [reflexivity|]. split; [apply rfc_free|]. split; [apply nonce_free; exact Ln|]. split; [apply rfc_free|].
  revert Le. apply Forall_impl. intros x (A & M & P). split; [apply attr_free; exact A|].
  split; [|split; assumption]. destruct A as (a & v & _ & _ & ->). cbn. lia.
Qed.

Lemma reads_server_first m nonce salt n : is_server_first m nonce salt n [] ->
  exists iters, server_first_parse m = Ok (mk_sf nonce (rfc_encode salt) iters) /\ decimal iters n.
Proof.
  intros (iters & -> & Ln & D & _). exists iters. split; [|exact D]. apply server_first_parse_exact.
  cbn [extensions_text map concat]. rewrite app_nil_r. split; [reflexivity|].
  split; [apply nonce_free; exact Ln|]. split; [apply rfc_free|exact (decimal_free _ _ D)].
Qed.

(** A third comma-separated part after the iteration count is refused. *)
Lemma refuses_server_first m nonce salt n x exts : is_server_first m nonce salt n (x :: exts) ->
  exists b, server_first_parse m = Err (PeInvalidAttribute b) /\ hd_error x = Some b.
Proof.
  intros (iters & -> & Ln & D & _ & Le). inversion Le as [|? ? (a & v & La & V & E) Le']; subst.
  exists a. split; [|reflexivity]. unfold server_first_text, extensions_text. cbn [map concat].
  unfold server_first_parse. change (lit ",s=") with (","%char :: lit "s="). change (lit ",i=") with (","%char :: lit "i=").
  rewrite <- !app_assoc. cbn [app]. rewrite lit_app_sep.
  rewrite csplit_app by (apply free_attr; [discriminate|discriminate|apply nonce_free; exact Ln]).
  rewrite lit_app_sep, csplit_app by (apply free_attr; [discriminate|discriminate|apply rfc_free]).
  rewrite lit_app_sep, csplit_app by (apply free_attr; [discriminate|discriminate|exact (decimal_free _ _ D)]).
  destruct (csplit_with_tail (a :: "="%char :: v) (extensions_text exts)) as [rest E].
  - apply attr_free. exists a, v. auto.
  - apply exts_tail.
  - unfold extensions_text in E. cbn [app] in E. rewrite E. reflexivity.
Qed.

Lemma comma_cons x : lit "," ++ x = ","%char :: x.
Proof. reflexivity. Qed.
Lemma refuses_mandatory_client m : is_mandatory_client_first m ->
  client_first_parse m = Err PeUnknownMandatoryExtensions.
Proof.
  intros (f & z & v & user & nonce & exts & V & -> & Lf & Lz & _).
  unfold client_first_parse, gs2_text. rewrite <- !app_assoc. rewrite !comma_cons.
  rewrite csplit_app by (apply flag_no_comma; exact Lf). cbn [next_part].
  rewrite (proj2 (cbflag_parse_ok _ _)) by (split; [reflexivity|exact Lf]). cbn [rbind].
  set (tl := first_bare user nonce ++ extensions_text exts).
  assert (K : split is_comma (lit "m=" ++ v ++ ","%char :: tl) = (lit "m=" ++ v) :: split is_comma tl).
  { rewrite lit_app_sep. apply csplit_app. apply free_attr; [discriminate|discriminate|apply value_valid; exact V]. }
  destruct z as [z|].
  - destruct (name_valid z (Lz z eq_refl)) as [Uz Fz]. rewrite lit_app_sep.
    rewrite csplit_app by (apply free_attr; [discriminate|discriminate|exact Fz]). rewrite <- ?lit_app_sep, K.
    cbn [next_part lit list_ascii_of_string app slice2 rbind snd].
    rewrite (proj2 (utf8_p_ok z (fun s => Ok (Some s)) (Some z))) by (split; [exact Uz|reflexivity]). reflexivity.
  - cbn [app]. change (","%char :: lit "m=" ++ v ++ ","%char :: tl) with ([] ++ ","%char :: lit "m=" ++ v ++ ","%char :: tl).
    rewrite csplit_app by easy. rewrite K. reflexivity.
Qed.

Lemma refuses_mandatory_server m : is_mandatory_server_first m ->
  server_first_parse m = Err PeUnknownMandatoryExtensions.
Proof.
  intros (v & m' & nonce & salt & n & exts & V & -> & _). unfold server_first_parse.
  rewrite comma_cons, lit_app_sep.
  rewrite csplit_app by (apply free_attr; [discriminate|discriminate|apply value_valid; exact V]). reflexivity.
Qed.

(** The sessions. *)
Lemma client_refuses_first e s a cb nonce user m script x :
  client_waits s a cb nonce user -> server_first_parse m = Err x ->
  exists s', step e s (Some m) script = (Err (EMech (MScramParse x)), [], s') /\ s_trace s' = s_trace s.
Proof.
  intros W E. unfold client_waits in W. unfold step, run. rewrite W.
  unfold mech_step, bind, getl, on, scram_client_step, bind, getl, setl, handle_server_first, bind, scram_parse, of_res.
  rewrite E. cbn. eexists. split; reflexivity.
Qed.
Lemma server_refuses_first e s a plus m script x :
  s_mech s = XScramS a (Some (SsClientFirst plus)) -> client_first_parse m = Err x ->
  exists s', step e s (Some m) script = (Err (EMech (MScramParse x)), [], s') /\ s_trace s' = s_trace s.
Proof.
  intros W E. unfold step, run. rewrite W.
  unfold mech_step, bind, getl, on, scram_server_step, bind, getl, setl, locally, handle_client_first, bind,
    scram_parse, of_res.
  rewrite E. cbn. eexists. split; reflexivity.
Qed.

Lemma decode_comma x r : decode (x ++ ","%char :: r) = None.
Proof.
  destruct (decode (x ++ ","%char :: r)) as [b|] eqn:E; [|reflexivity]. exfalso.
  apply decode_rfc in E. apply (rfc_free b). rewrite <- E. apply in_or_app. right. left. reflexivity.
Qed.

Lemma final_step e s a sig ck sk salt n m script : client_expects s a sig ck sk salt n ->
  forall (P : res serr state * bytes * session -> Prop),
  (match handle_server_final e (mk_wsfin sig ck sk salt n) m None
           (mk_world [] script (s_trace s) (s_rng s) (s_val s)) with
   | (r, l, w) => P (match r with Ok _ => Ok (Finished false) | Err x => Err x | Panic => Panic end, w_out w,
       mk_session (XScramC a l) (w_trace w) (w_rng w) (w_val w))
   end) -> P (step e s (Some m) script).
Proof.
  intros W P H. unfold client_expects in W. unfold step, run. rewrite W.
  unfold mech_step, bind, getl, on, scram_client_step, bind, getl, setl, ret.
  destruct (handle_server_final _ _ _ _ _) as [[[u|x|] l] w]; exact H.
Qed.

Lemma client_refuses_verifier e s a sig ck sk salt n m sig' x exts script :
  client_expects s a sig ck sk salt n -> is_verifier m sig' (x :: exts) ->
  exists s', step e s (Some m) script = (Err (EMech (MScramProtocol PrBase64Decode)), [], s') /\ s_trace s' = s_trace s.
Proof.
  intros W [-> _]. apply (final_step _ _ _ _ _ _ _ _ _ _ W).
  unfold handle_server_final, bind, scram_parse, of_res. rewrite server_final_parse_verifier. cbn [rmap_err].
  unfold extensions_text. cbn [map concat app]. unfold ret. rewrite decode_comma. cbn. eexists. split; reflexivity.
Qed.

Lemma value_no_comma y v : error_value y v -> free ","%char v.
Proof. intros []; cbn; intros H; repeat (destruct H as [H|H]; [discriminate H|]); exact H. Qed.
Lemma client_misses_error e s a sig ck sk salt n m v x exts script :
  client_expects s a sig ck sk salt n -> is_error m v (x :: exts) ->
  exists s', step e s (Some m) script = (Err (EMech (MScramServerError SeOtherError)), [], s').
Proof.
  intros W [-> _]. apply (final_step _ _ _ _ _ _ _ _ _ _ W).
  unfold handle_server_final, bind, scram_parse, of_res, server_final_parse.
  cbn [lit list_ascii_of_string app slice2 rbind fst snd].
  change (bytes_eqb ["e"%char; "="%char] ["v"%char; "="%char]) with false.
  change (bytes_eqb ["e"%char; "="%char] ["e"%char; "="%char]) with true. cbv iota. cbn [rmap_err].
  rewrite parse_unlisted.
  - cbn. eexists. reflexivity.
  - intros y H. apply value_no_comma in H. apply H. unfold extensions_text. cbn [map concat app].
    apply in_or_app. right. left. reflexivity.
Qed.
Lemma reads_verifier m sig : is_verifier m sig [] -> server_final_parse m = Ok (SfVerifier (rfc_encode sig)).
Proof. intros [-> _]. cbn [extensions_text map concat]. rewrite app_nil_r. apply server_final_parse_verifier. Qed.
Lemma reads_error m v x : is_error m v [] -> error_value x v \/ (x = SeOtherError /\ forall y, ~ error_value y v) ->
  server_final_parse m = Ok (SfError x).
Proof.
  intros [-> _] H. cbn [extensions_text map concat]. rewrite app_nil_r.
  assert (E : srverr_parse v = x) by (destruct H as [H|[-> H]]; [apply parse_value|apply parse_unlisted]; exact H).
  unfold server_final_parse. cbn [lit list_ascii_of_string app slice2 rbind fst snd].
  change (bytes_eqb ["e"%char; "="%char] ["v"%char; "="%char]) with false.
  change (bytes_eqb ["e"%char; "="%char] ["e"%char; "="%char]) with true. cbv iota. rewrite E. reflexivity.
Qed.

Theorem first_extension_refused e s a cb nonce user m nonce' salt n x exts script :
  client_waits s a cb nonce user -> is_server_first m nonce' salt n (x :: exts) ->
  exists b s', hd_error x = Some b /\
    step e s (Some m) script = (Err (EMech (MScramParse (PeInvalidAttribute b))), [], s') /\ s_trace s' = s_trace s.
Proof.
  intros W G. destruct (refuses_server_first _ _ _ _ _ _ G) as [b [E Hb]].
  destruct (client_refuses_first e s a cb nonce user m script _ W E) as [s' K]. exists b, s'. split; [exact Hb|exact K].
Qed.
Theorem mandatory_refused e s m script :
  (exists a plus, s_mech s = XScramS a (Some (SsClientFirst plus)) /\ is_mandatory_client_first m) \/
  (exists a cb nonce user, client_waits s a cb nonce user /\ is_mandatory_server_first m) ->
  exists s', step e s (Some m) script = (Err (EMech (MScramParse PeUnknownMandatoryExtensions)), [], s') /\
    s_trace s' = s_trace s.
Proof.
  intros [(a & plus & W & G)|(a & cb & nonce & user & W & G)].
  - exact (server_refuses_first e s a plus m script _ W (refuses_mandatory_client m G)).
  - exact (client_refuses_first e s a cb nonce user m script _ W (refuses_mandatory_server m G)).
Qed.

(** What exactly is read. *)
Theorem client_first_exact m f z user nonce :
  client_first_parse m = Ok (mk_cf f z user nonce) <->
  exists two t, client_first_fields m f two z user nonce t.
Proof.
  split.
  - intros H. apply client_first_parse_inv in H. cbn [cf_cbflag cf_authzid cf_username cf_nonce] in H.
    destruct H as (two & t & E & H1 & H2 & H3 & H4 & H5 & H6 & H7 & H8). exists two, t.
    unfold client_first_fields. unfold authzid_part in *. auto 12.
  - intros (two & t & -> & H3 & H1 & H7 & H8 & H2 & H5 & H6 & H4).
    apply (client_first_parse_text f two z user nonce t); assumption.
Qed.
Lemma listed v : (exists u, error_value u v) \/ (forall u, ~ error_value u v).
Proof.
  destruct (find (fun y => bytes_eqb v (srverr_bytes y))
    [SeInvalidEncoding; SeExtensionsNotSupported; SeInvalidProof; SeChannelBindingsDontMatch;
     SeServerDoesSupportChannelBinding; SeChannelBindingNotSupported; SeUnsupportedChannelBindingType;
     SeUnknownUser; SeInvalidUsernameEncoding; SeNoResources; SeOtherError]) as [u|] eqn:E.
  - apply find_some in E. destruct E as [_ E]. destruct (bytes_eqb_spec v (srverr_bytes u)) as [E'|]; [|discriminate].
    left. exists u. apply error_values. exact E'.
  - right. intros u H. apply error_values in H. subst v. destruct u; discriminate E.
Qed.
Theorem server_final_exact m x :
  server_final_parse m = Ok x <->
  (exists v, m = lit "v=" ++ v /\ x = SfVerifier v) \/
  (exists v y, m = lit "e=" ++ v /\ x = SfError y /\
     (error_value y v \/ (y = SeOtherError /\ forall u, ~ error_value u v))).
Proof.
  split.
  - intros H. apply server_final_parse_inv in H. destruct H as [(v & -> & ->)|(v & -> & ->)]; [left; eauto|right].
    exists v, (srverr_parse v). split; [reflexivity|]. split; [reflexivity|].
    destruct (listed v) as [[u Hu]|Hn].
    + left. rewrite (parse_value u v Hu). exact Hu.
    + right. split; [apply parse_unlisted; exact Hn|exact Hn].
  - intros [(v & -> & ->)|(v & y & -> & -> & H)]; [apply server_final_parse_verifier|].
    assert (E : srverr_parse v = y) by (destruct H as [H|[-> H]]; [apply parse_value|apply parse_unlisted]; exact H).
    unfold server_final_parse. cbn [lit list_ascii_of_string app slice2 rbind fst snd].
    change (bytes_eqb ["e"%char; "="%char] ["v"%char; "="%char]) with false.
    change (bytes_eqb ["e"%char; "="%char] ["e"%char; "="%char]) with true. cbv iota. rewrite E. reflexivity.
Qed.

(** C34: what the serialiser of client-first messages writes is RFC text and reads back. *)
Theorem client_first_written f z user nonce :
  is_client_first (concat (client_first_slices (mk_cf f z user nonce))) f z user nonce [] <->
  legal_flag f /\ (forall x, z = Some x -> saslname x) /\ saslname user /\ nonce_text nonce.
Proof.
  assert (E : concat (client_first_slices (mk_cf f z user nonce)) = gs2_text f z ++ first_bare user nonce ++ extensions_text []).
  { destruct f, z; cbn; repeat (rewrite ?app_nil_r, <- ?app_assoc; cbn); reflexivity. }
  unfold is_client_first. rewrite E. split; [intros (_ & F & Z & U & N & _); auto|].
  intros (F & Z & U & N). split; [reflexivity|]. split; [exact F|]. split; [exact Z|]. split; [exact U|]. split; [exact N|constructor].
Qed.
