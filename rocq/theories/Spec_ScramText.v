(** RFC 5802 text, independent of the model's parsers and writers. *)
From Verif Require Import Bytes Utf8 Types OAuth ScramParser Spec_OAuth.

(** RFC 5802 section 5.1: saslname decoding. "=2C" stands for a comma, "=3D" for an equals
    sign; any other use of these two characters is malformed. *)
Fixpoint rfc_unescape (x : bytes) : option bytes :=
  match x with
  | [] => Some []
  | c :: r =>
      if Ascii.eqb c ","%char then None
      else if Ascii.eqb c "="%char then
        match r with
        | a :: b :: r' =>
            if Ascii.eqb a "2"%char && Ascii.eqb b "C"%char then option_map (cons ","%char) (rfc_unescape r')
            else if Ascii.eqb a "3"%char && Ascii.eqb b "D"%char then option_map (cons "="%char) (rfc_unescape r')
            else None
        | _ => None
        end
      else option_map (cons c) (rfc_unescape r)
  end.

(** gs2-cbind-flag *)
Definition flag_text (f : cbflag) : bytes :=
  match f with
  | CbNotSupported => lit "n"
  | CbSupportedNotUsed => lit "y"
  | CbUsed name => lit "p=" ++ name
  end.

(** gs2-header *)
Definition gs2_text (f : cbflag) (z : option bytes) : bytes :=
  flag_text f ++ lit "," ++ match z with Some z => lit "a=" ++ z | None => [] end ++ lit ",".

(** client-first-message-bare, without extensions *)
Definition first_bare (user nonce : bytes) : bytes := lit "n=" ++ user ++ lit ",r=" ++ nonce.

(** server-first-message, without extensions *)
Definition server_first_text (nonce salt iters : bytes) : bytes :=
  lit "r=" ++ nonce ++ lit ",s=" ++ salt ++ lit ",i=" ++ iters.

(** client-final-message-without-proof, without extensions *)
Definition final_bare (cb nonce : bytes) : bytes := lit "c=" ++ cb ++ lit ",r=" ++ nonce.

(** AuthMessage (RFC 5802 section 3) *)
Definition rfc_auth_message (cfirst sfirst cfinal : bytes) : bytes :=
  cfirst ++ lit "," ++ sfirst ++ lit "," ++ cfinal.

(** No further attributes, or further ones after a comma. *)
Definition tail_of_attributes (x : bytes) : Prop := x = [] \/ exists r, x = ","%char :: r.

(** A legal channel binding type name: non-empty, letters, digits, '.' and '-'. *)
Definition rfc_cbname_char (b : byte) : bool :=
  existsb (Ascii.eqb b)
    (lit "ABCDEFGHIJKLMNOPQRSTUVWXYZabcdefghijklmnopqrstuvwxyz0123456789.-").
Definition legal_cbname (name : bytes) : Prop :=
  name <> [] /\ forallb rfc_cbname_char name = true.

Definition legal_flag (f : cbflag) : Prop :=
  match f with CbUsed name => legal_cbname name | _ => True end.

(** Printable ASCII without comma (RFC 5802 nonce). *)
Definition legal_nonce (x : bytes) : Prop :=
  Forall (fun b => (33 <= N_of_ascii b <= 126)%N /\ b <> ","%char) x.

(** Extension attributes written between nonce and proof of a client-final message. *)
Definition extension (x : bytes) : Prop :=
  free ","%char x /\ 2 <= length x /\
  firstn 2 x <> lit "p=" /\ firstn 2 x <> lit "m=".
Definition extensions_text (l : list bytes) : bytes := concat (map (cons ","%char) l).
