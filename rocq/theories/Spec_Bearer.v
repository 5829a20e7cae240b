(** Vocabulary for C86: the client responses of RFC 7628, section 3.1. *)
From Coq Require Import NArith.
From Verif Require Import Bytes Utf8 Spec_OAuth ScramParser Spec_ScramText Spec_Grammar.

(** key = 1*ALPHA *)
Definition key_text (k : bytes) : Prop := k <> [] /\ Forall letter k.
(** value = *(VCHAR / SP / HTAB / CR / LF) *)
Definition value_chars (v : bytes) : Prop :=
  Forall (fun b => (33 <= N_of_ascii b <= 126 \/ In (N_of_ascii b) [32; 9; 13; 10])%N) v.

(** client-resp with an optional authorization identity and key/value pairs *)
Definition is_response (m : bytes) (z : option bytes) (pairs : list (bytes * bytes)) : Prop :=
  m = gs2_text CbNotSupported z ++ concat (map kv_text pairs) ++ [chr 1; chr 1] /\
  (forall x, z = Some x -> saslname x /\ free (chr 1) x) /\
  Forall (fun p => key_text (fst p) /\ value_chars (snd p)) pairs.

Definition is_auth (p : bytes * bytes) : bool := bytes_eqb (fst p) (lit "auth").
(** The tokens and the other pairs. *)
Definition tokens (pairs : list (bytes * bytes)) : list bytes := map snd (filter is_auth pairs).
Definition others (pairs : list (bytes * bytes)) : list (bytes * bytes) :=
  filter (fun p => negb (is_auth p)) pairs.

(** What the server takes for a pair: no separators, but the token may contain "=". *)
Definition readable_pair (p : bytes * bytes) : Prop :=
  free (chr 1) (fst p) /\ free (chr 1) (snd p) /\ free "="%char (fst p) /\
  utf8_valid (fst p) = true /\ utf8_valid (snd p) = true /\
  (fst p <> lit "auth" -> free "="%char (snd p)).
(** The part for the authorization identity, and anything after a second comma. *)
Definition readable_header (h : bytes) (z : option bytes) : Prop :=
  exists t, h = lit "n," ++ match z with Some z => lit "a=" ++ z | None => [] end ++ t /\
    tail_of_attributes t /\ free (chr 1) t /\
    match z with Some z => free ","%char z /\ free (chr 1) z /\ utf8_valid z = true | None => True end.

(** What the server takes for a response: of several tokens the last one counts. *)
Definition readable (m : bytes) (z : option bytes) (t : bytes) (pairs : list (bytes * bytes)) : Prop :=
  exists h, m = h ++ concat (map kv_text pairs) ++ [chr 1; chr 1] /\ readable_header h z /\
    Forall readable_pair pairs /\ hd_error (rev (tokens pairs)) = Some t.
