(** Properties, their value types, contexts and error values. *)
From Coq Require Import Eqdep_dec.
From Verif Require Import Bytes.

(** property.rs:35-218, mechanisms/*/properties.rs, anonymous/mod.rs: the property types a
    request, an action or a context can be about. [PCustom n] stands for any property type
    defined outside rsasl (its value type is byte strings: simplification). *)
Inductive prop :=
| PAuthId | PAuthzId | PPassword | PRealm | PHostname | PService
| PChannelBindings | PChannelBindingName | POverrideCBType
| POAuthBearerToken | POAuthBearerKV | POAuthBearerValidate | POAuthBearerErrored
| PXOAuth2Validate | PXOAuth2Error
| PAnonymousToken
| PIterations | PSalt | PScramStoredPassword | PScramCachedPassword | PSaltedPassword
| PGssService | PGssSecurityLayer
| PCustom (n : nat).

Definition prop_eq_dec (p q : prop) : {p = q} + {p <> q}.
Proof. decide equality. apply Nat.eq_dec. Defined.

(** scram/properties.rs:29-53 ScramStoredPassword. *)
Record stored := mk_stored {
  st_iterations : N; st_salt : bytes; st_stored_key : bytes; st_server_key : bytes }.

(** scram/properties.rs:63-69 ScramCachedPassword. *)
Record cached := mk_cached { ca_client_key : bytes; ca_server_key : bytes }.

(** oauthbearer/properties.rs:31-72 OAuthBearerError. *)
Record oberr := mk_oberr {
  ob_status : bytes; ob_scope : option bytes; ob_openid : option bytes }.

(** gssapi/properties.rs:40-48: bitflags over u8, the byte itself. *)
Definition seclayer := byte.

(** [Property::Value]. [Result<(), E>] is [option E]. *)
Definition pval (p : prop) : Type :=
  match p with
  | POAuthBearerKV => list (bytes * bytes)
  | POAuthBearerValidate => option oberr
  | POAuthBearerErrored => oberr
  | PXOAuth2Validate => option bytes
  | PIterations => N
  | PScramStoredPassword => stored
  | PScramCachedPassword => cached
  | PGssSecurityLayer => seclayer
  | _ => bytes
  end.

(** typed.rs downcast: succeeds exactly if the two tags are the same type. *)
Definition castp {p q : prop} (v : pval p) : option (pval q) :=
  match prop_eq_dec p q with
  | left e => Some (eq_rect p pval v q e)
  | right _ => None
  end.

(** A provider (context.rs:9-14): the sequence of [provide_ref::<P>(v)] calls it makes. *)
Definition entry := {p : prop & pval p}.
Definition mk_entry (p : prop) (v : pval p) : entry := existT pval p v.
Definition ctx := list entry.

(** context.rs:28-33 EmptyProvider. *)
Definition empty_provider : ctx := [].
(** context.rs:186-205 ThisProvider. *)
Definition this_provider (p : prop) (v : pval p) : ctx := [mk_entry p v].
(** context.rs:36-50 And: asks the left provider first, then the right one. *)
Definition and_provider (l r : ctx) : ctx := l ++ r.

(** context.rs:97-104,168-172: [Context::get_ref::<P>()]. The first matching
    [provide_ref] breaks out of the provider. *)
Fixpoint get_ref (c : ctx) (q : prop) : option (pval q) :=
  match c with
  | [] => None
  | existT _ p v :: r =>
      match @castp p q v with
      | Some x => Some x
      | None => get_ref r q
      end
  end.

(** I/O error kinds a writer can report. *)
Inductive ioerr := IoWriteZero | IoOther (n : nat).

(** plain/mechinfo.rs PlainError. *)
Inductive plainerr := PlBadFormat | PlEmpty | PlContainsNull | PlBadAuthzid | PlBadAuthcid
                    | PlSaslprep.

(** scram/parser.rs:157-178 ParseError (payload bytes kept). *)
Inductive parseerr := PeBadCBFlag | PeBadCBName (b : byte) | PeBadGS2Header
  | PeInvalidAttribute (b : byte) | PeMissingAttributes | PeUnknownMandatoryExtensions
  | PeBadUtf8 | PeBadNonce.

(** scram/parser.rs:8-21 SaslNameError. *)
Inductive snerr := SnEmpty | SnInvalidUtf8 | SnInvalidChar (b : byte) | SnInvalidEscape.

(** scram/client.rs:494-503 ProtocolError. *)
Inductive proterr := PrInvalidNonce | PrIterationCountFormat | PrIterationCountZero
  | PrBase64Decode.

(** scram/parser.rs:495-508 ServerErrorValue. *)
Inductive srverr := SeInvalidEncoding | SeExtensionsNotSupported | SeInvalidProof
  | SeChannelBindingsDontMatch | SeServerDoesSupportChannelBinding
  | SeChannelBindingNotSupported | SeUnsupportedChannelBindingType | SeUnknownUser
  | SeInvalidUsernameEncoding | SeNoResources | SeOtherError.

(** oauthbearer/parser.rs:4-25 ParseError. *)
Inductive obparseerr := ObMissingPart | ObMissingEnd | ObMissingToken | ObInvalidGs2
  | ObChannelBindings | ObInvalidKVPair | ObInvalidUtf8.

(** The [MechanismError] values the built-in mechanisms produce. *)
Inductive mecherr :=
| MPlain (e : plainerr)
| MLoginUtf8
| MExternalUtf8
| MAnonymousUtf8
| MXOAuth2NotUtf8
| MXOAuth2InvalidFormat
| MOAuthBearerParse (e : obparseerr)
| MOAuthBearerSerde
| MScramProtocol (e : proterr)
| MScramParse (e : parseerr)
| MScramServerError (e : srverr)
| MScramPasswordHashInvalid
| MScramChannelBindingsNotUsed
| MSaslName (e : snerr)
| MGss
| MGssBadFinalToken
| MGssBadContext.

(** validate.rs:166-173 ValidationError. *)
Inductive verr := VMissingRequiredProperty | VBoxed (n : nat).

(** error.rs:40-103 SessionError; callback.rs:196-215 CallbackError inlined.
    [NoCallback] carries the property instead of its type name. *)
Inductive serr :=
| EIo (e : ioerr)
| EBase64
| ENoSecurityLayer
| EInputDataRequired
| EMechanismDone
| EMech (e : mecherr)
| ECbNoValue
| ECbNoCallback (p : prop)
| ECbEarlyReturn
| EValidation (e : verr)
| EBoxed (n : nat)
| ENoValidate
| EMutualAuthenticationFailed
| EMissingChannelBindingData (name : bytes).

(** session.rs:439-479 State and MessageSent. *)
Inductive state := Running | Finished (message_sent : bool).

(** session.rs Side. *)
Inductive side := SClient | SServer.

(** session.rs:417-434 SessionData: what callbacks learn about the session. *)
Record sdata := mk_sdata { sd_mech : bytes; sd_side : side }.
