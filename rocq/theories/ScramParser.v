(** mechanisms/scram/parser.rs *)
From Verif Require Import Bytes Utf8 Types OAuth.

(** scram/parser.rs:39-46 SaslEscapeState::escape and the iterator 48-76: the characters one
    input character is replaced with. Works on bytes instead of chars: ',' and '=' are ASCII
    and therefore never part of a multi-byte character (simplification; see Utf8Chars.v for
    the proof that it makes no difference). *)
Definition escape_char (b : byte) : bytes :=
  if is_comma b then lit "=2C" else if is_equals b then lit "=3D" else [b].

(** scram/parser.rs:103-117 SaslName::escape. *)
Definition escape (input : bytes) : res snerr bytes :=
  match input with
  | [] => Err SnEmpty
  | _ =>
      if contains zero input then Err (SnInvalidChar zero)
      else if contains comma input || contains equals input
           then Ok (flat_map escape_char input)
           else Ok input
  end.

(** scram/parser.rs:136-150: the while loop of unescape. [None]: not finished after [fuel]
    iterations. *)
Fixpoint unescape_loop (fuel : nat) (out input : bytes) : option (res snerr bytes) :=
  match fuel with
  | O => None
  | S f =>
      match split_at_byte equals input with
      | None => Some (Ok out)
      | Some (good, rest) =>
          if utf8_valid good then
            match rest with
            | _ :: a :: b :: _ =>
                if bytes_eqb [a; b] (lit "2C")
                then unescape_loop f (out ++ good ++ [comma]) rest
                else if bytes_eqb [a; b] (lit "3D")
                     then unescape_loop f (out ++ good ++ [equals]) rest
                     else Some (Err SnInvalidEscape)
            | _ => Some Panic
            end
          else Some (Err SnInvalidUtf8)
      end
  end.

(** scram/parser.rs:123-155 SaslName::unescape. *)
Definition unescape (fuel : nat) (input : bytes) : option (res snerr bytes) :=
  match input with
  | [] => Some (Err SnEmpty)
  | _ =>
      match find (fun b => is_comma b || beq b zero) input with
      | Some c => Some (Err (SnInvalidChar c))
      | None =>
          match split_at_byte equals input with
          | Some (good, rest) =>
              if utf8_valid good then unescape_loop fuel good rest
              else Some (Err SnInvalidUtf8)
          | None => if utf8_valid input then Some (Ok input) else Some (Err SnInvalidUtf8)
          end
      end
  end.

(** scram/parser.rs:180-192 GS2CBindFlag. *)
Inductive cbflag := CbSupportedNotUsed | CbNotSupported | CbUsed (name : bytes).

(** scram/parser.rs:204: characters allowed in channel binding names. *)
Definition cbname_char (b : byte) : bool :=
  beq b "."%char || beq b "-"%char || in_range 48 57 b || in_range 65 90 b
  || in_range 97 122 b.

(** scram/parser.rs:194-216 GS2CBindFlag::parse. *)
Definition cbflag_parse (input : bytes) : res parseerr cbflag :=
  if bytes_eqb input (lit "n") then Ok CbNotSupported
  else if bytes_eqb input (lit "y") then Ok CbSupportedNotUsed
  else match input with
       | p :: q :: _ :: _ =>
           if beq p "p"%char && beq q "="%char then
             let name := skipn 2 input in
             match find (fun b => negb (cbname_char b)) name with
             | None => Ok (CbUsed name)
             | Some bad => Err (PeBadCBName bad)
             end
           else Err PeBadCBFlag
       | _ => Err PeBadCBFlag
       end.

(** scram/parser.rs:218-224 as_ioslices. *)
Definition cbflag_slices (f : cbflag) : list bytes :=
  match f with
  | CbNotSupported => [lit "n"; []]
  | CbSupportedNotUsed => [lit "y"; []]
  | CbUsed name => [lit "p="; name]
  end.

(** scram/parser.rs:227-233 ClientFirstMessage. *)
Record client_first := mk_cf {
  cf_cbflag : cbflag; cf_authzid : option bytes; cf_username : bytes; cf_nonce : bytes }.

(** [partiter.next().ok_or(e)?] *)
Definition next_part {A} (e : parseerr) (it : list bytes)
    (k : bytes -> list bytes -> res parseerr A) : res parseerr A :=
  match it with
  | [] => Err e
  | p :: r => k p r
  end.

Definition utf8_p {A} (b : bytes) (k : bytes -> res parseerr A) : res parseerr A :=
  match from_utf8 b with Some s => k s | None => Err PeBadUtf8 end.

(** [if &next[0..2] == tag { &next[2..] } else { return Err(InvalidAttribute(next[0])) }] *)
Definition expect_attr {A} (tag : bytes) (next : bytes) (k : bytes -> res parseerr A)
  : res parseerr A :=
  rbind (slice2 next) (fun hr =>
    if bytes_eqb (fst hr) tag then k (snd hr)
    else rbind (index0 next) (fun b => Err (PeInvalidAttribute b))).

(** scram/parser.rs:278: characters allowed in the client nonce. *)
Definition nonce_char (b : byte) : bool := in_range 33 43 b || in_range 45 126 b.

(** scram/parser.rs:250-290 ClientFirstMessage::parse. Parts after the nonce are ignored. *)
Definition client_first_parse (input : bytes) : res parseerr client_first :=
  let it := split is_comma input in
  next_part PeBadCBFlag it (fun first it =>
  rbind (cbflag_parse first) (fun flag =>
  next_part PeBadGS2Header it (fun za it =>
  rbind (match za with
         | [] => Ok None
         | _ => rbind (slice2 za) (fun hr => utf8_p (snd hr) (fun s => Ok (Some s)))
         end) (fun authzid =>
  next_part PeMissingAttributes it (fun next it =>
  rbind (slice2 next) (fun hr =>
  if bytes_eqb (fst hr) (lit "m=") then Err PeUnknownMandatoryExtensions
  else expect_attr (lit "n=") next (fun u => utf8_p u (fun username =>
  next_part PeMissingAttributes it (fun next _ =>
  expect_attr (lit "r=") next (fun nonce =>
  if forallb nonce_char nonce
  then Ok (mk_cf flag authzid username nonce)
  else Err PeBadNonce)))))))))).

(** scram/parser.rs:293-301 gs2_header_parts. *)
Definition gs2_header_parts (m : client_first) : list bytes :=
  cbflag_slices (cf_cbflag m) ++
  match cf_authzid m with
  | None => [lit ","; []]
  | Some a => [lit ",a="; a]
  end.

(** scram/parser.rs:305-318 as_ioslices (unused by the client, which writes its own slices;
    scram/client.rs:212-218). *)
Definition client_first_slices (m : client_first) : list bytes :=
  gs2_header_parts m ++ [lit ",n="; cf_username m; lit ",r="; cf_nonce m].

(** scram/parser.rs:321-339 build_gs2_header_vec. *)
Definition build_gs2_header (m : client_first) : bytes :=
  concat (gs2_header_parts m) ++ lit ",".

(** scram/parser.rs:342-353 ServerFirst as parsed (server_nonce = None). *)
Record server_first := mk_sf { sf_nonce : bytes; sf_salt : bytes; sf_iterations : bytes }.

(** scram/parser.rs:369-410 ServerFirst::parse. *)
Definition server_first_parse (input : bytes) : res parseerr server_first :=
  let it := split is_comma input in
  next_part PeMissingAttributes it (fun next it =>
  if Nat.ltb (length next) 2 then Err PeMissingAttributes
  else
  rbind (slice2 next) (fun hr =>
  if bytes_eqb (fst hr) (lit "m=") then Err PeUnknownMandatoryExtensions
  else expect_attr (lit "r=") next (fun nonce =>
  next_part PeMissingAttributes it (fun next it =>
  expect_attr (lit "s=") next (fun salt =>
  next_part PeMissingAttributes it (fun next it =>
  expect_attr (lit "i=") next (fun iters =>
  match it with
  | next :: _ => rbind (index0 next) (fun b => Err (PeInvalidAttribute b))
  | [] => Ok (mk_sf nonce salt iters)
  end))))))).

(** scram/parser.rs:355-367 ServerFirst::new and 412-422 as_ioslices. *)
Definition server_first_slices (client_nonce server_nonce salt iters : bytes) : list bytes :=
  [lit "r="; client_nonce; server_nonce; lit ",s="; salt; lit ",i="; iters].

(** scram/parser.rs:425-430 ClientFinal. *)
Record client_final := mk_cl { cl_cb : bytes; cl_nonce : bytes; cl_proof : bytes }.

(** scram/parser.rs:461-470: the loop skipping extensions; also returns the rest. *)
Fixpoint find_proof (it : list bytes) : res parseerr (bytes * list bytes) :=
  match it with
  | [] => Err PeMissingAttributes
  | next :: r =>
      match slice2 next with
      | Ok (h, t) =>
          if bytes_eqb h (lit "p=") then Ok (t, r)
          else if bytes_eqb h (lit "m=") then Err PeUnknownMandatoryExtensions
          else find_proof r
      | Err e => Err e
      | Panic => Panic
      end
  end.

(** scram/parser.rs:444-481 ClientFinal::parse. *)
Definition client_final_parse (input : bytes) : res parseerr client_final :=
  let it := split is_comma input in
  next_part PeMissingAttributes it (fun next it =>
  expect_attr (lit "c=") next (fun cb =>
  next_part PeMissingAttributes it (fun next it =>
  expect_attr (lit "r=") next (fun nonce =>
  rbind (find_proof it) (fun pr =>
  match snd pr with
  | next :: _ => rbind (index0 next) (fun b => Err (PeInvalidAttribute b))
  | [] => Ok (mk_cl cb nonce (fst pr))
  end))))).

(** scram/parser.rs:483-492 to_ioslices. *)
Definition client_final_slices (m : client_final) : list bytes :=
  [lit "c="; cl_cb m; lit ",r="; cl_nonce m; lit ",p="; cl_proof m].

(** scram/parser.rs:510-524 ServerErrorValue::as_bytes. *)
Definition srverr_bytes (e : srverr) : bytes :=
  match e with
  | SeInvalidEncoding => lit "invalid-encoding"
  | SeExtensionsNotSupported => lit "extensions-not-supported"
  | SeInvalidProof => lit "invalid-proof"
  | SeChannelBindingsDontMatch => lit "channel-bindings-dont-match"
  | SeServerDoesSupportChannelBinding => lit "server-does-support-channel-binding"
  | SeChannelBindingNotSupported => lit "channel-binding-not-supported"
  | SeUnsupportedChannelBindingType => lit "unsupported-channel-binding-type"
  | SeUnknownUser => lit "unknown-user"
  | SeInvalidUsernameEncoding => lit "invalid-username-encoding"
  | SeNoResources => lit "no-resources"
  | SeOtherError => lit "other-error"
  end.

(** scram/parser.rs:562-576: the match on the error text. *)
Definition srverr_parse (b : bytes) : srverr :=
  match find (fun e => bytes_eqb b (srverr_bytes e))
          [SeInvalidEncoding; SeExtensionsNotSupported; SeInvalidProof;
           SeChannelBindingsDontMatch; SeServerDoesSupportChannelBinding;
           SeChannelBindingNotSupported; SeUnsupportedChannelBindingType; SeUnknownUser;
           SeInvalidUsernameEncoding; SeNoResources] with
  | Some e => e
  | None => SeOtherError
  end.

(** scram/parser.rs:547-550 ServerFinal. *)
Inductive server_final := SfVerifier (v : bytes) | SfError (e : srverr).

(** scram/parser.rs:554-580 ServerFinal::parse. *)
Definition server_final_parse (input : bytes) : res parseerr server_final :=
  rbind (slice2 input) (fun hr =>
  if bytes_eqb (fst hr) (lit "v=") then Ok (SfVerifier (snd hr))
  else if bytes_eqb (fst hr) (lit "e=") then Ok (SfError (srverr_parse (snd hr)))
  else rbind (index0 input) (fun b => Err (PeInvalidAttribute b))).

(** scram/parser.rs:582-587 to_ioslices. *)
Definition server_final_slices (m : server_final) : list bytes :=
  match m with
  | SfVerifier v => [lit "v="; v]
  | SfError e => [lit "e="; srverr_bytes e]
  end.
