(** Characters of UTF-8 text, and why rsasl's character-wise functions may be modelled
    byte-wise. *)
From Coq Require Import Lia.
From Verif Require Import Bytes BytesFacts Utf8 Utf8Facts OAuth ScramParser.

(** [str::chars], every character as its encoding. Meaningful on valid UTF-8. *)
Fixpoint chars (l : bytes) : list bytes :=
  match l with
  | [] => []
  | a :: r =>
      if in_range 0 127 a then [a] :: chars r
      else if in_range 194 223 a then
        match r with b :: r1 => [a; b] :: chars r1 | _ => [] end
      else if in_range 224 239 a then
        match r with b :: c :: r2 => [a; b; c] :: chars r2 | _ => [] end
      else
        match r with b :: c :: d :: r3 => [a; b; c; d] :: chars r3 | _ => [] end
  end.

(** scram/parser.rs:39-76 as written: one character at a time. *)
Definition escape_chars (c : bytes) : bytes :=
  if bytes_eqb c (lit ",") then lit "=2C" else if bytes_eqb c (lit "=") then lit "=3D" else c.

Lemma escape_byte b : escape_chars [b] = escape_char b.
Proof.
  unfold escape_chars, escape_char, is_comma, is_equals, bytes_eqb. cbn [lit list_ascii_of_string].
  rewrite !Bool.andb_true_r. reflexivity.
Qed.

Lemma escape_char_high b : in_range 0 127 b = false -> escape_char b = [b].
Proof.
  intros H. unfold escape_char, is_comma, is_equals.
  destruct (beq b comma) eqn:E1; [apply beq_eq in E1; subst; discriminate|].
  destruct (beq b equals) eqn:E2; [apply beq_eq in E2; subst; discriminate|]. reflexivity.
Qed.

Lemma not_low lo hi b : (128 <= lo)%N -> in_range lo hi b = true -> in_range 0 127 b = false.
Proof.
  intros Hlo H. destruct (in_range 0 127 b) eqn:E; [|reflexivity].
  rewrite (ascii_not_cont lo hi b E Hlo) in H. discriminate.
Qed.

Lemma chars_concat n : forall l, length l <= n -> utf8_valid l = true -> concat (chars l) = l.
Proof.
  induction n as [|n IH]; intros l Hn H.
  { destruct l; [reflexivity|simpl in Hn; lia]. }
  destruct l as [|x a]; [reflexivity|]. cbn [utf8_valid chars] in *. simpl in Hn.
  destruct (in_range 0 127 x); [cbn; f_equal; apply IH; [lia|assumption]|].
  destruct (in_range 194 223 x).
  { destruct a as [|y a]; [discriminate|]. simpl in Hn. destruct (cont y); [|discriminate].
    cbn. do 2 f_equal. apply IH; [lia|assumption]. }
  destruct (in_range 224 239 x).
  { destruct a as [|y [|z a]]; try discriminate. simpl in Hn.
    destruct (if in_range 224 224 x then _ else _); [|discriminate].
    destruct (cont z); [|discriminate]. cbn. do 3 f_equal. apply IH; [lia|assumption]. }
  destruct (in_range 240 244 x); [|discriminate].
  destruct a as [|y [|z [|t a]]]; try discriminate. simpl in Hn.
  destruct (if in_range 240 240 x then _ else _); [|discriminate].
  destruct (cont z); [|discriminate]. destruct (cont t); [|discriminate].
  cbn. do 4 f_equal. apply IH; [lia|assumption].
Qed.

Lemma long_char x y r : escape_chars (x :: y :: r) = x :: y :: r.
Proof.
  unfold escape_chars. cbn. rewrite !Bool.andb_false_r. reflexivity.
Qed.

(** Escaping character by character is escaping byte by byte. *)
Lemma escape_bytewise_len n : forall l, length l <= n -> utf8_valid l = true ->
  concat (map escape_chars (chars l)) = flat_map escape_char l.
Proof.
  induction n as [|n IH]; intros l Hn H.
  { destruct l; [reflexivity|simpl in Hn; lia]. }
  destruct l as [|x a]; [reflexivity|]. cbn [utf8_valid chars] in *. simpl in Hn.
  destruct (in_range 0 127 x) eqn:Ex.
  { cbn [map concat flat_map]. rewrite escape_byte. f_equal. apply IH; [lia|assumption]. }
  destruct (in_range 194 223 x).
  { destruct a as [|y a]; [discriminate|]. simpl in Hn. destruct (cont y) eqn:Ey; [|discriminate].
    cbn [map concat flat_map]. rewrite long_char, !escape_char_high;
      [|apply (not_low 128 191); [lia|exact Ey]|exact Ex].
    cbn [app]. do 2 f_equal. apply IH; [lia|assumption]. }
  destruct (in_range 224 239 x).
  { destruct a as [|y [|z a]]; try discriminate. simpl in Hn.
    destruct (if in_range 224 224 x then _ else _) eqn:Ey; [|discriminate].
    destruct (cont z) eqn:Ez; [|discriminate].
    assert (in_range 0 127 y = false).
    { destruct (in_range 224 224 x); [|destruct (in_range 237 237 x)];
        eapply not_low; [|exact Ey| |exact Ey| |exact Ey]; lia. }
    cbn [map concat flat_map]. rewrite long_char, !escape_char_high;
      [|apply (not_low 128 191); [lia|exact Ez]|assumption|exact Ex].
    cbn [app]. do 3 f_equal. apply IH; [lia|assumption]. }
  destruct (in_range 240 244 x); [|discriminate].
  destruct a as [|y [|z [|t a]]]; try discriminate. simpl in Hn.
  destruct (if in_range 240 240 x then _ else _) eqn:Ey; [|discriminate].
  destruct (cont z) eqn:Ez; [|discriminate]. destruct (cont t) eqn:Et; [|discriminate].
  assert (in_range 0 127 y = false).
  { destruct (in_range 240 240 x); [|destruct (in_range 244 244 x)];
      eapply not_low; [|exact Ey| |exact Ey| |exact Ey]; lia. }
  cbn [map concat flat_map]. rewrite long_char, !escape_char_high;
    [|apply (not_low 128 191); [lia|exact Et]|apply (not_low 128 191); [lia|exact Ez]|assumption|exact Ex].
  cbn [app]. do 4 f_equal. apply IH; [lia|assumption].
Qed.

Theorem escape_bytewise l : utf8_valid l = true ->
  concat (map escape_chars (chars l)) = flat_map escape_char l.
Proof. apply (escape_bytewise_len (length l)). lia. Qed.

Theorem concat_chars l : utf8_valid l = true -> concat (chars l) = l.
Proof. apply (chars_concat (length l)). lia. Qed.
