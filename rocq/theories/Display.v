(** The texts errors are displayed as ([Display], written with thiserror's [#[error(..)]]).
    Simplifications: a text is a list of bytes.  Texts that come from elsewhere are arbitrary
    ([texts]); that of [core::str::Utf8Error] is written after the standard library's documentation
    and published source, with any numbers. *)
From Verif Require Import Bytes Num Types Mechname.

(** Texts of errors of the application and of libraries. *)
Record texts := mk_texts {
  (** [Box<dyn Error>] made by the application *)
  tx_boxed : nat -> bytes -> Prop;
  (** stringprep::Error *)
  tx_prep : bytes -> Prop;
  (** libgssapi::error::Error *)
  tx_gss : bytes -> Prop }.

(** core::str::Utf8Error: [error_len] and [valid_up_to]. *)
Definition utf8_shows (t : bytes) : Prop :=
  (exists n i, t = lit "invalid utf-8 sequence of " ++ fmt_u32 n ++ lit " bytes from index " ++ fmt_u32 i) \/
  (exists i, t = lit "incomplete utf-8 byte sequence from index " ++ fmt_u32 i).

(** [{0:#x}] of a byte. *)
Definition hex_digit (n : N) : byte := if N.ltb n 10 then chr (48 + n) else chr (87 + n).
Definition fmt_hex (b : byte) : bytes :=
  let n := N_of_ascii b in
  lit "0x" ++ (if N.ltb n 16 then [] else [hex_digit (n / 16)]) ++ [hex_digit (n mod 16)].
(** [{0}] of a byte. *)
Definition fmt_u8 (b : byte) : bytes := fmt_u32 (N_of_ascii b).

(** plain/mechinfo.rs:36-55 PlainError. *)
Definition plain_shows (T : texts) (x : plainerr) (t : bytes) : Prop :=
  match x with
  | PlContainsNull => t = lit "The given value contains a NULL-byte"
  | PlEmpty => t = lit "authid and password must not be empty"
  | PlBadFormat => t = lit "invalid format, expected three strings separated by two NULL-bytes"
  | PlBadAuthzid => exists u, utf8_shows u /\ t = lit "authzid is invalid UTF-8: " ++ u
  | PlBadAuthcid => exists u, utf8_shows u /\ t = lit "authcid is invalid UTF-8: " ++ u
  | PlSaslprep => exists u, tx_prep T u /\ t = lit "saslprep failed: " ++ u
  end.

(** scram/parser.rs:157-180 ParseError. *)
Definition parse_shows (x : parseerr) (t : bytes) : Prop :=
  match x with
  | PeBadCBFlag => t = lit "bad channel flag"
  | PeBadCBName b => t = lit "channel binding name contains invalid byte " ++ fmt_hex b
  | PeBadGS2Header => t = lit "invalid gs2header"
  | PeInvalidAttribute b => t = lit "attribute contains invalid byte " ++ fmt_hex b
  | PeMissingAttributes => t = lit "required attribute is missing"
  | PeUnknownMandatoryExtensions => t = lit "an extension is unknown but marked mandatory"
  | PeBadUtf8 => exists u, utf8_shows u /\ t = lit "invalid UTF-8: " ++ u
  | PeBadNonce => t = lit "nonce contains invalid character"
  end.

(** scram/parser.rs:7-21 SaslNameError. *)
Definition name_shows (x : snerr) (t : bytes) : Prop :=
  match x with
  | SnEmpty => t = lit "empty string is invalid for name"
  | SnInvalidUtf8 => exists u, utf8_shows u /\ t = lit "name contains invalid utf-8: " ++ u
  | SnInvalidChar b => t = lit "name contains invalid char " ++ fmt_u8 b
  | SnInvalidEscape => t = lit "name contains invalid escape sequence"
  end.

(** scram/client.rs:493-503 ProtocolError. *)
Definition protocol_text (x : proterr) : bytes :=
  match x with
  | PrInvalidNonce => lit "returned server nonce is invalid"
  | PrIterationCountFormat => lit "iteration count must be decimal"
  | PrIterationCountZero => lit "iteration count can't be zero"
  | PrBase64Decode => lit "base64 decoding of data failed"
  end.

(** scram/parser.rs:526-546 ServerErrorValue::as_str and Display. *)
Definition outcome_text (x : srverr) : bytes :=
  match x with
  | SeInvalidEncoding => lit "invalid encoding"
  | SeExtensionsNotSupported => lit "extensions not supported"
  | SeInvalidProof => lit "invalid proof"
  | SeChannelBindingsDontMatch => lit "channel bindings dont match"
  | SeServerDoesSupportChannelBinding => lit "server does support channel binding"
  | SeChannelBindingNotSupported => lit "channel binding not supported"
  | SeUnsupportedChannelBindingType => lit "unsupported channel binding type"
  | SeUnknownUser => lit "unknown user"
  | SeInvalidUsernameEncoding => lit "invalid username encoding"
  | SeNoResources => lit "no resources"
  | SeOtherError => lit "other error"
  end.

(** The errors of the mechanisms: login/server.rs:12-16 (transparent), external/server.rs:10-12,
    anonymous/server.rs:10-12, xoauth2/client.rs:30-38 and server.rs:29-37 (with USER and TOKN,
    server.rs:44-45), oauthbearer/properties.rs:6-21 (the cause of a parse error is a source and not
    displayed), scram/client.rs:505-517, scram/server.rs:48-55, gssapi/properties.rs:6-19. *)
Definition mech_shows (T : texts) (x : mecherr) (t : bytes) : Prop :=
  match x with
  | MPlain x => plain_shows T x t
  | MLoginUtf8 => utf8_shows t
  | MExternalUtf8 => t = lit "the given external token is invalid UTF-8"
  | MAnonymousUtf8 => t = lit "anonymous token received is invalid UTF-8 or longer than 255 chars"
  | MXOAuth2NotUtf8 =>
      t = lit "response message is invalid UTF-8" \/
      t = lit "provided username is not UTF-8 encoded" \/
      t = lit "provided bearer token is not UTF-8 encoded"
  | MXOAuth2InvalidFormat => t = lit "input is of an invalid format"
  | MOAuthBearerParse _ => t = lit "failed to parse message"
  | MOAuthBearerSerde => t = lit "failed to serialize error message"
  | MScramProtocol x => t = lit "SCRAM protocol error: " ++ protocol_text x
  | MScramParse x => exists u, parse_shows x u /\ t = lit "failed to parse received message: " ++ u
  | MScramServerError x => t = lit "SCRAM outcome error: " ++ outcome_text x
  | MScramPasswordHashInvalid => t = lit "provided password hash is wrong size for selected algorithm"
  | MScramChannelBindingsNotUsed => t = lit "channel bindings are supported by both sides but were not used"
  | MSaslName x => name_shows x t
  | MGss => exists u, tx_gss T u /\ t = lit "GSS-API error: " ++ u
  | MGssBadFinalToken => t = lit "final token is invalid"
  | MGssBadContext => t = lit "produced context is not secure enough"
  end.

(** error.rs:40-103 SessionError.  Sources (of I/O, callback and validation errors) are not displayed. *)
Definition shows (T : texts) (x : serr) (t : bytes) : Prop :=
  match x with
  | EIo _ => t = lit "IO error occurred"
  | EBase64 => t = lit "base64 wrapping failed"
  | ENoSecurityLayer => t = lit "no security layer is installed"
  | EInputDataRequired => t = lit "input data was required but not provided"
  | EMechanismDone => t = lit "step was called after mechanism finished"
  | EMech x => exists u, mech_shows T x u /\ t = lit "internal mechanism error: " ++ u
  | ECbNoValue | ECbNoCallback _ | ECbEarlyReturn => t = lit "callback error"
  | EValidation _ => t = lit "validation error"
  | EBoxed n => tx_boxed T n t
  | ENoValidate => t = lit "callback did not validate the authentication exchange"
  | EMutualAuthenticationFailed => t = lit "the server failed mutual authentication"
  | EMissingChannelBindingData name =>
      t = lit "channel binding data for '" ++ name ++ lit "' is required"
  end.

(** mechname.rs:162-179 MechanismNameError. *)
Definition mn_text (x : mnerr) : bytes :=
  match x with
  | MnTooShort => lit "a mechanism name can not be empty"
  | MnInvalidChar i b =>
      lit "contains invalid character at offset " ++ fmt_u32 (N.of_nat i) ++ lit ": " ++ fmt_hex b
  end.
