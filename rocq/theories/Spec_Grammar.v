(** Vocabulary for C85: the messages of RFC 5802, section 7, written from the ABNF. *)
From Coq Require Import NArith.
From Verif Require Import Bytes Spec_Wire Spec_OAuth ScramParser Spec_ScramText.

(** value: UTF-8 without NUL and comma, not empty *)
Definition value_text (x : bytes) : Prop :=
  x <> [] /\ utf8_text x /\ free ","%char x /\ free (chr 0) x.
(** saslname *)
Definition saslname (x : bytes) : Prop := value_text x /\ rfc_unescape x <> None.
Definition letter (b : byte) : Prop :=
  (65 <= N_of_ascii b <= 90 \/ 97 <= N_of_ascii b <= 122)%N.
(** attr-val = ALPHA "=" value *)
Definition attr_val (x : bytes) : Prop :=
  exists a v, letter a /\ value_text v /\ x = a :: "="%char :: v.
(** c-nonce [s-nonce] *)
Definition nonce_text (x : bytes) : Prop := x <> [] /\ legal_nonce x.
(** An extension is not a mandatory one, nor an attribute [b] of the message. *)
Definition optional_ext (b : byte) (x : bytes) : Prop :=
  attr_val x /\ firstn 2 x <> lit "m=" /\ firstn 2 x <> [b; "="%char].

(** client-first-message with the extensions [exts] *)
Definition is_client_first (m : bytes) (f : cbflag) (z : option bytes) (user nonce : bytes)
    (exts : list bytes) : Prop :=
  m = gs2_text f z ++ first_bare user nonce ++ extensions_text exts /\
  legal_flag f /\ (forall x, z = Some x -> saslname x) /\ saslname user /\ nonce_text nonce /\
  Forall attr_val exts.

(** client-first-message that begins with a mandatory extension (reserved-mext) *)
Definition is_mandatory_client_first (m : bytes) : Prop :=
  exists f z v user nonce exts, value_text v /\
    m = gs2_text f z ++ lit "m=" ++ v ++ lit "," ++ first_bare user nonce ++ extensions_text exts /\
    legal_flag f /\ (forall x, z = Some x -> saslname x) /\ saslname user /\ nonce_text nonce /\
    Forall attr_val exts.

(** server-first-message; [iters] is a posit-number *)
Definition is_server_first (m nonce salt : bytes) (n : N) (exts : list bytes) : Prop :=
  exists iters, m = server_first_text nonce (rfc_encode salt) iters ++ extensions_text exts /\
    nonce_text nonce /\ decimal iters n /\ n <> 0%N /\ Forall attr_val exts.
Definition is_mandatory_server_first (m : bytes) : Prop :=
  exists v m' nonce salt n exts, value_text v /\ m = lit "m=" ++ v ++ lit "," ++ m' /\
    is_server_first m' nonce salt n exts.

(** client-final-message *)
Definition is_client_final (m cb nonce proof : bytes) (exts : list bytes) : Prop :=
  m = final_bare (rfc_encode cb) nonce ++ extensions_text exts ++ lit ",p=" ++ rfc_encode proof /\
  nonce_text nonce /\ Forall (optional_ext "p"%char) exts.

(** server-final-message: a verifier or an error *)
Definition is_verifier (m signature : bytes) (exts : list bytes) : Prop :=
  m = lit "v=" ++ rfc_encode signature ++ extensions_text exts /\ Forall attr_val exts.
Definition is_error (m v : bytes) (exts : list bytes) : Prop :=
  m = lit "e=" ++ v ++ extensions_text exts /\ value_text v /\ Forall attr_val exts.
