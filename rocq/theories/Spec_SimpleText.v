(** Vocabulary for C88: the messages of RFC 4616 (PLAIN), RFC 4422 appendix A (EXTERNAL) and
    RFC 4505 (ANONYMOUS). *)
From Coq Require Import NArith.
From Verif Require Import Bytes Spec_Wire Spec_Simple.

(** SAFE characters: text without NUL. *)
Definition safe_text (x : bytes) : Prop := utf8_text x /\ nul_free x.
(** message = [authzid] NUL authcid NUL passwd *)
Definition is_plain (m z a p : bytes) : Prop :=
  m = plain_message z a p /\ safe_text z /\ safe_text a /\ a <> [] /\ safe_text p /\ p <> [].
(** extern-initial-resp: the authorization identity without NUL, maybe empty *)
Definition is_external (m : bytes) : Prop := safe_text m.
(** trace information: text of at most 255 characters *)
Definition is_trace (m : bytes) : Prop :=
  exists cps, Forall scalar cps /\ length cps <= 255 /\ m = flat_map utf8_char cps.
