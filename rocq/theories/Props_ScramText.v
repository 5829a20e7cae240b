(** Property theorems about SCRAM names and the SCRAM AuthMessage. *)
From Verif Require Import Bytes Utf8 Types World OAuth ScramParser Scram
  Spec_OAuth Spec_ScramText Utf8Chars Proof_ScramText.

(** C31: escaping succeeds exactly on the names that are non-empty and free of NUL, and its
    result is then the one string that RFC 5802 unescaping maps back to the name. *)
Theorem C31_escape_exact : forall x y,
  escape x = Ok y <-> x <> [] /\ ~ In (chr 0) x /\ rfc_unescape y = Some x.
Proof. exact escape_exact. Qed.
Print Assumptions C31_escape_exact.
Example C31_escape_example :
  escape (lit "a=b,c") = Ok (lit "a=3Db=2Cc") /\
  rfc_unescape (lit "a=3Db=2Cc") = Some (lit "a=b,c").
Proof. split; reflexivity. Qed.

Theorem C31_injective : forall x x' y, escape x = Ok y -> escape x' = Ok y -> x = x'.
Proof. exact escape_injective. Qed.
Print Assumptions C31_injective.

(** The escaped name has no comma, and every '=' in it starts "=2C" or "=3D". *)
Theorem C31_no_separators : forall x y, escape x = Ok y ->
  free ","%char y /\
  forall a r, y = a ++ "="%char :: r -> exists r', r = lit "2C" ++ r' \/ r = lit "3D" ++ r'.
Proof.
  intros x y H. split; [exact (escape_no_comma x y H)|].
  intros a r E. exact (escape_equals x y a r H E).
Qed.
Print Assumptions C31_no_separators.
Example C31_no_separators_example : exists y, escape (lit ",=,") = Ok y /\ y <> lit ",=,".
Proof. exists (lit "=2C=3D=2C"). split; [reflexivity|discriminate]. Qed.

(** The code escapes char by char, the model byte by byte; on the UTF-8 strings the code works
    on the two agree. *)
Theorem C31_charwise : forall x, utf8_valid x = true ->
  concat (map escape_chars (chars x)) = flat_map escape_char x.
Proof. exact escape_bytewise. Qed.
Print Assumptions C31_charwise.
Example C31_charwise_example :
  utf8_valid (chr 195 :: chr 164 :: lit ",") = true /\
  length (chars (chr 195 :: chr 164 :: lit ",")) = 2.
Proof. split; vm_compute; reflexivity. Qed.

Theorem C31_refused : forall x, (exists e, escape x = Err e) <-> x = [] \/ In (chr 0) x.
Proof. exact escape_refused. Qed.
Print Assumptions C31_refused.

(** C32: for names without ',' and '='. Missing for the full property: names with one of the
    two, for which it is false (below); names with other bytes than UTF-8 cannot occur (&str). *)
Theorem C32_unescape_partial : forall x y fuel, utf8_valid x = true -> escape x = Ok y ->
  free ","%char x -> free "="%char x -> unescape fuel y = Some (Ok x).
Proof. exact unescape_plain. Qed.
Print Assumptions C32_unescape_partial.
Example C32_unescape_example :
  utf8_valid (lit "user") = true /\ escape (lit "user") = Ok (lit "user").
Proof. split; reflexivity. Qed.

(** C32 is false for every name with ',' or '=': the loop never ends, however long it runs. *)
Theorem C32_terminates_refuted : forall x y, utf8_valid x = true -> escape x = Ok y ->
  In ","%char x \/ In "="%char x -> forall fuel, unescape fuel y = None.
Proof. exact unescape_diverges. Qed.
Print Assumptions C32_terminates_refuted.
Example C32_terminates_example : forall fuel, unescape fuel (lit "a=2Cb") = None.
Proof.
  apply (C32_terminates_refuted (lit "a,b")); [reflexivity|reflexivity|].
  left. vm_compute. auto.
Qed.

(** C32 is false for every text whose first '=' is followed by fewer than two bytes: it
    panics. *)
Theorem C32_panic_refuted : forall a t fuel, utf8_valid a = true ->
  free "="%char a -> free ","%char (a ++ t) -> free (chr 0) (a ++ t) -> length t <= 1 ->
  unescape (S fuel) (a ++ "="%char :: t) = Some Panic.
Proof. exact unescape_panics. Qed.
Print Assumptions C32_panic_refuted.
Example C32_panic_example : unescape 1 (lit "ab=2") = Some Panic.
Proof. reflexivity. Qed.

(** C40: the AuthMessage of RFC 5802 is unambiguous. *)
Theorem C40_rfc_injective : forall u n fn s i cb fn2 u' n' fn' s' i' cb' fn2',
  Forall (free ","%char) [u; n; fn; s; i; cb; fn2; u'; n'; fn'; s'; i'; cb'; fn2'] ->
  rfc_auth_message (first_bare u n) (server_first_text fn s i) (final_bare cb fn2) =
  rfc_auth_message (first_bare u' n') (server_first_text fn' s' i') (final_bare cb' fn2') ->
  u = u' /\ n = n' /\ fn = fn' /\ s = s' /\ i = i' /\ cb = cb' /\ fn2 = fn2'.
Proof. exact rfc_auth_message_inj. Qed.
Print Assumptions C40_rfc_injective.

(** C40: and so is the string that compute_signatures signs. *)
Theorem C40_signed_injective : forall u n sn s i cb u' n' sn' s' i' cb',
  Forall (free ","%char) [u; n; sn; s; i; cb; u'; n'; sn'; s'; i'; cb'] ->
  auth_message u n sn s i cb = auth_message u' n' sn' s' i' cb' ->
  u = u' /\ n = n' /\ sn = sn' /\ s = s' /\ i = i' /\ cb = cb'.
Proof. exact auth_message_inj. Qed.
Print Assumptions C40_signed_injective.
Example C40_example :
  Forall (free ","%char) [lit "u"; lit "n"; lit "sn"; lit "s"; lit "i"; lit "cb"].
Proof. repeat constructor; unfold free; vm_compute; intuition discriminate. Qed.
