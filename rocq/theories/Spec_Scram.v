(** Specification vocabulary for SCRAM exchanges. *)
From Verif Require Import Bytes Utf8 Types World CallbackSpec Base64 Num OAuth ScramParser Scram
  Session Registry Spec_Wire Spec_Simple Spec_OAuth Spec_ScramText.

(** The nonce made of the 24 random numbers that come after the first [n]. *)
Definition nonce_from (e : env) (n : nat) : bytes :=
  map (fun k => pick (e_rng e k)) (seq n 24).

(** The salt made up for an unknown user: 32 fresh random bytes from draw [n] on. *)
Definition dummy_salt (e : env) (n : nat) : bytes :=
  map (fun k => ascii_of_N (N.modulo (e_rng e k) 256)) (seq n 32).

(** [data] is the channel binding data of type [name]: the channel's own, or the application's
    answer if the channel has none. *)
Definition cb_source (e : env) (evs : list event) (name data : bytes) : Prop :=
  e_chan e name = Some data \/
  (e_chan e name = None /\ answers PChannelBindings evs = [data]).

(** The state of a SCRAM client after its first message. *)
Definition client_waits (s : session) (a : alg) (cb nonce user : bytes) : Prop :=
  s_mech s = XScramC a (Some (ScClientFirst (mk_wsf cb nonce user))).

(** Name and data with which a -PLUS client binds the channel. *)
Definition client_binding (e : env) (evs : list event) (name data : bytes) : Prop :=
  cb_source e evs name data /\
  (answers POverrideCBType evs = [name] \/
   (answers POverrideCBType evs = [] /\
    (name = lit "tls-exporter" \/
     (name = lit "tls-unique" /\ e_chan e (lit "tls-exporter") = None)))).

(** The GS2 flag a SCRAM client with this knowledge about channel binding has to send. *)
Definition flag_for (plus : cbsupport) (f : cbflag) : Prop :=
  match plus with
  | ClientNoSupport => f = CbNotSupported
  | ServerNoSupport => f = CbSupportedNotUsed
  | Supported => exists name, f = CbUsed name
  end.

(** The escaped form of an optional identity. *)
Definition escaped (z : option bytes) (zesc : option bytes) : Prop :=
  match z, zesc with
  | Some z, Some y => escape z = Ok y
  | None, None => True
  | _, _ => False
  end.

(** [m] is a client-first message with these fields. The code accepts any two bytes [two]
    before the authorization identity, and ignores further attributes [t]. *)
Definition client_first_fields (m : bytes) (f : cbflag) (two : bytes) (z : option bytes)
    (user nonce t : bytes) : Prop :=
  m = flag_text f ++ lit "," ++ match z with Some z => two ++ z | None => [] end ++ lit "," ++
      first_bare user nonce ++ t /\
  length two = 2 /\ legal_flag f /\ legal_nonce nonce /\ tail_of_attributes t /\
  free ","%char (match z with Some z => two ++ z | None => [] end) /\ free ","%char user /\
  utf8_valid user = true /\ match z with Some z => utf8_valid z = true | None => True end.

(** The channel binding data that belongs to a flag. *)
Definition flag_data (e : env) (evs : list event) (f : cbflag) (data : bytes) : Prop :=
  match f with CbUsed name => cb_source e evs name data | _ => data = [] end.

(** The data of a stored password a server with hash [a] can use. *)
Definition usable (a : alg) (sp : stored) : Prop :=
  length (st_stored_key sp) = hlen a /\ length (st_server_key sp) = hlen a.
(** Cached keys fit the mechanism's hash. *)
Definition fitting (a : alg) (c : cached) : Prop :=
  length (ca_client_key c) = hlen a /\ length (ca_server_key c) = hlen a.

(** A server waiting for the final message of a known user. *)
Definition server_waits (s : session) (a : alg) (cn sn header user : bytes) (z : option bytes)
    (sp : stored) : Prop :=
  s_mech s = XScramS a (Some (SsClientFinal (Some
    (mk_fi cn sn header user z (encode (st_salt sp)) (fmt_u32 (st_iterations sp))
           (st_stored_key sp) (st_server_key sp))))).

(** A server waiting for the final message of an unknown user. *)
Definition server_pretends (s : session) (a : alg) : Prop :=
  s_mech s = XScramS a (Some (SsClientFinal None)).

(** Every context the application saw names this user and authorization identity. *)
Definition contexts_name (evs : list event) (user : bytes) (z : option bytes) : Prop :=
  forall c, (exists q, In (EvRequest q c) evs) \/ In (EvValidate c) evs ->
    get_ref c PAuthId = Some user /\ get_ref c PAuthzId = z.

(** The AuthMessage of an exchange without extensions, as RFC 5802 defines it. *)
Definition exchange_message (user cn sn salt iters cb : bytes) : bytes :=
  rfc_auth_message (first_bare user cn) (server_first_text (cn ++ sn) salt iters)
                   (final_bare cb (cn ++ sn)).

(** The client proof a p= attribute stands for: the decoded bytes, filled up with zeros. *)
Definition proof_value (a : alg) (p64 P : bytes) : Prop :=
  exists p, decode p64 = Some p /\ length p <= hlen a /\ P = p ++ repeat (chr 0) (hlen a - length p).

(** RFC 5802: H(ClientProof xor HMAC(StoredKey, AuthMessage)) = StoredKey. *)
Definition proves (e : env) (a : alg) (stored_key message P : bytes) : Prop :=
  e_hash e a (xor_text P (e_hmac e a stored_key message)) = stored_key.

(** [m] is a client-final message that authenticates the user with stored password [sp] in the
    exchange with nonces [cn] and [sn] and channel binding input [header]. *)
Definition authenticates (e : env) (a : alg) (cn sn header user : bytes) (sp : stored)
    (m cb p64 : bytes) (exts : list bytes) : Prop :=
  m = final_bare cb (cn ++ sn) ++ extensions_text exts ++ lit ",p=" ++ p64 /\
  free ","%char cb /\ free ","%char (cn ++ sn) /\ free ","%char p64 /\ Forall extension exts /\
  decode cb = Some header /\
  exists P, proof_value a p64 P /\
    proves e a (st_stored_key sp)
      (exchange_message user cn sn (encode (st_salt sp)) (fmt_u32 (st_iterations sp)) cb) P.

(** The server's signature over the exchange. *)
Definition server_signature (e : env) (a : alg) (server_key message : bytes) : bytes :=
  e_hmac e a server_key message.

(** The server-error-values of RFC 5802, section 7. *)
Inductive error_value : srverr -> bytes -> Prop :=
| ev_encoding : error_value SeInvalidEncoding (lit "invalid-encoding")
| ev_extensions : error_value SeExtensionsNotSupported (lit "extensions-not-supported")
| ev_proof : error_value SeInvalidProof (lit "invalid-proof")
| ev_match : error_value SeChannelBindingsDontMatch (lit "channel-bindings-dont-match")
| ev_does : error_value SeServerDoesSupportChannelBinding (lit "server-does-support-channel-binding")
| ev_not : error_value SeChannelBindingNotSupported (lit "channel-binding-not-supported")
| ev_type : error_value SeUnsupportedChannelBindingType (lit "unsupported-channel-binding-type")
| ev_user : error_value SeUnknownUser (lit "unknown-user")
| ev_username : error_value SeInvalidUsernameEncoding (lit "invalid-username-encoding")
| ev_resources : error_value SeNoResources (lit "no-resources")
| ev_other : error_value SeOtherError (lit "other-error").

(** [out] is the beginning of an e= message. *)
Definition error_prefix (out : bytes) : Prop :=
  exists x v rest, error_value x v /\ lit "e=" ++ v = out ++ rest.
Definition error_message (out : bytes) : Prop :=
  exists x v, error_value x v /\ out = lit "e=" ++ v.

(** The context names the user, the authorization identity if there is one, and nothing else. *)
Definition offers_scram (c : ctx) (user : bytes) (z : option bytes) : Prop :=
  get_ref c PAuthId = Some user /\ get_ref c PAuthzId = z /\
  forall q, q <> PAuthId -> q <> PAuthzId -> get_ref c q = None.

(** Asked for the stored password of this user acting as [z], the application answers [o]. *)
Definition looks_up (e : env) (user : bytes) (z : option bytes) (o : option stored) : Prop :=
  forall tr c, offers_scram c user z ->
    let p := e_cb e tr (e_sd e) c (RSatisfy PScramStoredPassword) in
    bubbling p /\
    match o with
    | Some sp => answer PScramStoredPassword p = inr sp
    | None => answer PScramStoredPassword p = inl None \/
              answer PScramStoredPassword p = inl (Some ECbNoValue)
    end.

(** Called to validate this user acting as [z], the application reports no error. *)
Definition validates_user (e : env) (user : bytes) (z : option bytes) : Prop :=
  forall tr c slot, offers_scram c user z ->
    fst (run_validate (e_vtag e) (e_vcb e tr (e_sd e) c) slot) = None.

(** [m] is a server-first message that continues the nonce [nonce]. *)
Definition continues (m nonce sn salt64 salt iters : bytes) (n : N) : Prop :=
  m = server_first_text (nonce ++ sn) salt64 iters /\ sn <> [] /\
  decode salt64 = Some salt /\ parse_u32 iters = Some n /\ n <> 0%N /\
  free ","%char (nonce ++ sn) /\ free ","%char salt64 /\ free ","%char iters.

(** ClientKey and ServerKey of RFC 5802 for a salted password. *)
Definition client_key_of (e : env) (a : alg) (salted : bytes) : bytes :=
  e_hmac e a salted (lit "Client Key").
Definition server_key_of (e : env) (a : alg) (salted : bytes) : bytes :=
  e_hmac e a salted (lit "Server Key").

(** The client's keys come from what the application provided. *)
Definition keys_from (e : env) (a : alg) (evs : list event) (salt : bytes) (n : N)
    (ck sk : bytes) : Prop :=
  (exists c, In c (answers PScramCachedPassword evs) /\
     ck = ca_client_key c /\ sk = ca_server_key c) \/
  (exists p, In p (answers PSaltedPassword evs) /\ p <> [] /\
     ck = client_key_of e a p /\ sk = server_key_of e a p) \/
  (exists p, In p (answers PPassword evs) /\
     ck = client_key_of e a (e_pbkdf2 e a p salt n) /\
     sk = server_key_of e a (e_pbkdf2 e a p salt n)).

(** The proof a client with this key has to send. *)
Definition client_proof (e : env) (a : alg) (ck message : bytes) : bytes :=
  xor_text ck (e_hmac e a (e_hash e a ck) message).

(** The state of a SCRAM client after its final message. *)
Definition client_expects (s : session) (a : alg) (signature ck sk salt : bytes) (n : N) : Prop :=
  s_mech s = XScramC a (Some (ScServerFirst (mk_wsfin signature ck sk salt n))).

(** The context names salt and iteration count, and nothing else. *)
Definition offers_salt (c : ctx) (salt : bytes) (n : N) : Prop :=
  get_ref c PSalt = Some salt /\ get_ref c PIterations = Some n /\
  forall q, q <> PSalt -> q <> PIterations -> get_ref c q = None.

(** Channel binding data of type [name] can be had: from the channel or else from the
    application. *)
Definition binding_available (e : env) (name data : bytes) : Prop :=
  e_chan e name = Some data \/ (e_chan e name = None /\ provides e PChannelBindings data).

(** What a client with this knowledge about channel binding will announce and bind to. *)
Definition client_can_bind (e : env) (plus : cbsupport) (f : cbflag) (data : bytes) : Prop :=
  match plus with
  | ClientNoSupport => f = CbNotSupported /\ data = []
  | ServerNoSupport => f = CbSupportedNotUsed /\ data = []
  | Supported => exists name, f = CbUsed name /\
      ((provides e POverrideCBType name /\ binding_available e name data) \/
       (withholds e POverrideCBType /\
        ((name = lit "tls-exporter" /\ binding_available e name data) \/
         (name = lit "tls-unique" /\ e_chan e (lit "tls-exporter") = None /\
          withholds e PChannelBindings /\ e_chan e name = Some data))))
  end.

(** A server has the binding data for this flag. *)
Definition server_can_bind (e : env) (f : cbflag) (data : bytes) : Prop :=
  match f with CbUsed name => binding_available e name data | _ => data = [] end.

(** The application gives the client keys derived from password [p]. *)
Definition gives_keys (e : env) (a : alg) (p salt : bytes) (n : N) : Prop :=
  provides e PScramCachedPassword
    (mk_cached (client_key_of e a (e_pbkdf2 e a p salt n))
               (server_key_of e a (e_pbkdf2 e a p salt n))) \/
  (withholds e PScramCachedPassword /\ e_pbkdf2 e a p salt n <> [] /\
   provides e PSaltedPassword (e_pbkdf2 e a p salt n)) \/
  (withholds e PScramCachedPassword /\ withholds e PSaltedPassword /\ provides e PPassword p).

(** The stored password RFC 5802 prescribes for the prepared password [p]. *)
Definition stored_for (e : env) (a : alg) (p : bytes) (sp : stored) : Prop :=
  let salted := e_pbkdf2 e a p (st_salt sp) (st_iterations sp) in
  st_stored_key sp = e_hash e a (client_key_of e a salted) /\
  st_server_key sp = server_key_of e a salted.

(** Both ends use the same functions. *)
Definition same_crypto (e e' : env) : Prop :=
  (forall a x, e_hash e a x = e_hash e' a x) /\
  (forall a k x, e_hmac e a k x = e_hmac e' a k x) /\
  (forall a p s n, e_pbkdf2 e a p s n = e_pbkdf2 e' a p s n).

(** The server vouches for the client: it asks for validation or begins to write a verifier. *)
Definition vouches (s s' : session) (out : bytes) : Prop :=
  (exists evs c, new_events s s' evs /\ In (EvValidate c) evs) \/
  (exists rest, out = "v"%char :: rest).

(** [m2] answers the server-first message [out1] with a proof of the stored key of [sp] over the conversation, bound to nonce and channel of this session. *)
Definition proven (e : env) (a : alg) (f : cbflag) (z : option bytes)
    (user cn sn out1 m2 data : bytes) (sp : stored) : Prop :=
  exists cb exts p64 P,
    out1 = server_first_text (cn ++ sn) (encode (st_salt sp)) (fmt_u32 (st_iterations sp)) /\
    m2 = final_bare cb (cn ++ sn) ++ extensions_text exts ++ lit ",p=" ++ p64 /\
    free ","%char cb /\ free ","%char p64 /\ Forall extension exts /\
    decode cb = Some (gs2_text f z ++ data) /\
    proof_value a p64 P /\
    e_hash e a (xor_text P (e_hmac e a (st_stored_key sp)
       (rfc_auth_message (first_bare user cn) out1 (final_bare cb (cn ++ sn)))))
    = st_stored_key sp.

(** One of the comma-separated attributes of [m] has fewer than two bytes. *)
Definition short_attribute (m : bytes) : Prop :=
  exists p b, length p < 2 /\ free ","%char p /\ tail_of_attributes b /\
    (m = p ++ b \/ exists a, m = a ++ lit "," ++ p ++ b).

(** The same for the part of a client-first message after the flag; there the second attribute,
    the authorization identity, may be empty. *)
Definition short_after_flag (m : bytes) : Prop :=
  exists flag z b, m = flag ++ lit "," ++ z ++ b /\ free ","%char flag /\ free ","%char z /\
    ((length z = 1 /\ tail_of_attributes b) \/
     (exists rest, b = lit "," ++ rest /\ short_attribute rest)).

(** The application supplied cached keys of the wrong length. *)
Definition bad_cached_keys (a : alg) (s s' : session) : Prop :=
  exists evs c, new_events s s' evs /\ In c (answers PScramCachedPassword evs) /\
    ~ (length (ca_client_key c) = hlen a /\ length (ca_server_key c) = hlen a).

(** The mechanism still has its state. SCRAM loses it when a step fails, and the client's when
    it finishes. *)
Definition live (m : mech) : Prop :=
  match m with XScramC _ None | XScramS _ None => False | _ => True end.

(** The messages a SCRAM session in state [m] waits for, but malformed: an attribute is too
    short to have a name. *)
Definition stunted (m : mech) (input : bytes) : Prop :=
  match m with
  | XScramC _ (Some (ScClientFirst _)) => short_attribute input
  | XScramC _ (Some (ScServerFirst _)) => length input < 2
  | XScramS _ (Some (SsClientFirst _)) => short_after_flag input
  | XScramS _ (Some (SsClientFinal _)) => short_attribute input
  | _ => False
  end.

(** The application's answers are text, as their Rust types ensure, and its channel binding name
    is a legal one. *)
Definition text_answers (evs : list event) : Prop :=
  (forall x, In x (answers PAuthId evs) -> utf8_valid x = true) /\
  (forall x, In x (answers PAuthzId evs) -> utf8_valid x = true) /\
  (forall x, In x (answers POverrideCBType evs) -> legal_cbname x).

(** The first message carries authorization identity [z], authentication identity [a] (and, with
    PLAIN, password [p]). *)
Definition carries (i : inst) (z a p msg : bytes) : Prop :=
  (i = Builtin XPlainC /\ msg = plain_message z a p) \/
  (exists al plus f zesc aesc nonce, i = Builtin (XScramC al (Some (ScInitial plus))) /\
     flag_for plus f /\ escape z = Ok zesc /\ escape a = Ok aesc /\
     msg = gs2_text f (Some zesc) ++ first_bare aesc nonce).

(** A well-formed client-final message with these attributes; [exts] are its extensions. *)
Definition final_fields (m cb fn p64 : bytes) (exts : list bytes) : Prop :=
  m = final_bare cb fn ++ extensions_text exts ++ lit ",p=" ++ p64 /\
  free ","%char cb /\ free ","%char fn /\ free ","%char p64 /\ Forall extension exts.

(** The step ends the exchange, reporting [v] to the client and asking the application nothing. *)
Definition reports (s : session) (t : res serr state * bytes * session) (v : bytes) : Prop :=
  let '(r, out, s') := t in
  r = Ok (Finished true) /\ out = lit "e=" ++ v /\ new_events s s' [] /\ s_val s' = s_val s.

(** The step fails for undecodable base64, without a message or a request. *)
Definition rejects_base64 (s : session) (t : res serr state * bytes * session) : Prop :=
  let '(r, out, s') := t in
  r = Err (EMech (MScramProtocol PrBase64Decode)) /\ out = [] /\ new_events s s' [] /\
  s_val s' = s_val s.
