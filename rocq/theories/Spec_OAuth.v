(** Specification vocabulary for XOAUTH2 and OAUTHBEARER. *)
From Verif Require Import Bytes Utf8 Types World CallbackSpec Simple OAuth Session Spec_Simple.

(** Text that does not contain [c]. *)
Definition free (c : byte) (x : bytes) : Prop := ~ In c x.

(** Google's XOAUTH2 message: user=...^Aauth=Bearer ...^A^A. *)
Definition xoauth2_message (user token : bytes) : bytes :=
  lit "user=" ++ user ++ chr 1 :: lit "auth=Bearer " ++ token ++ [chr 1; chr 1].

(** One key/value pair of RFC 7628: ^Akey=value. *)
Definition kv_text (kv : bytes * bytes) : bytes :=
  chr 1 :: fst kv ++ "="%char :: snd kv.

(** RFC 7628 client message: n,[a=authzid],(^Akey=value)*^Aauth=Bearer token^A^A. *)
Definition oauthbearer_message (authzid : option bytes) (kv : list (bytes * bytes))
    (token : bytes) : bytes :=
  lit "n," ++ match authzid with Some z => lit "a=" ++ z | None => [] end ++ lit "," ++
  concat (map kv_text kv) ++ chr 1 :: lit "auth=Bearer " ++ token ++ [chr 1; chr 1].

(** The context offers exactly these two values. *)
Definition offers_xoauth2 (c : ctx) (user token : bytes) : Prop :=
  get_ref c PAuthId = Some user /\ get_ref c POAuthBearerToken = Some token /\
  forall q, q <> PAuthId -> q <> POAuthBearerToken -> get_ref c q = None.

(** The context offers exactly these values. *)
Definition offers_oauthbearer (c : ctx) (authzid : option bytes) (token : bytes)
    (kv : list (bytes * bytes)) : Prop :=
  get_ref c PAuthzId = authzid /\ get_ref c POAuthBearerToken = Some token /\
  get_ref c POAuthBearerKV = Some kv /\
  forall q, q <> PAuthzId -> q <> POAuthBearerToken -> q <> POAuthBearerKV ->
    get_ref c q = None.

(** The application is first asked for [q] in a context satisfying [P], and validation, if
    any, happens in the same context. *)
Definition consulted (evs : list event) (q : prop) (P : ctx -> Prop) : Prop :=
  exists c rest, evs = EvRequest q c :: rest /\ P c /\
    forall c', In c' (validations rest) -> c' = c.

(** An optional answer. *)
Definition answered {q} (evs : list event) (o : option (pval q)) : Prop :=
  answers q evs = match o with Some v => [v] | None => [] end.

(** A key/value pair OAUTHBEARER can transmit: the separators occur in neither part, the key
    is not the one reserved for the token. *)
Definition sendable_pair (kv : bytes * bytes) : Prop :=
  free (chr 1) (fst kv) /\ free "="%char (fst kv) /\ fst kv <> lit "auth" /\
  free (chr 1) (snd kv) /\ free "="%char (snd kv) /\
  utf8_valid (fst kv) = true /\ utf8_valid (snd kv) = true.

(** An authorization identity OAUTHBEARER can transmit. *)
Definition sendable_authzid (z : option bytes) : Prop :=
  match z with
  | Some z => free ","%char z /\ free (chr 1) z /\ utf8_valid z = true
  | None => True
  end.
