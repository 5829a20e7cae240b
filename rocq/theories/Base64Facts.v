(** base64: encode and decode are exact inverses. *)
From Coq Require Import Lia.
From Verif Require Import Bytes Base64 BytesFacts.

Lemma list_ind3 {A} (P : list A -> Prop) :
  P [] -> (forall x, P [x]) -> (forall x y, P [x; y]) ->
  (forall x y z l, P l -> P (x :: y :: z :: l)) -> forall l, P l.
Proof.
  intros H0 H1 H2 H3.
  fix IH 1. intros [|x [|y [|z l]]]; [apply H0|apply H1|apply H2|apply H3; apply IH].
Qed.
Lemma list_ind4 {A} (P : list A -> Prop) :
  P [] -> (forall x, P [x]) -> (forall x y, P [x; y]) -> (forall x y z, P [x; y; z]) ->
  (forall x y z u l, P l -> P (x :: y :: z :: u :: l)) -> forall l, P l.
Proof.
  intros H0 H1 H2 H3 H4.
  fix IH 1.
  intros [|x [|y [|z [|u l]]]]; [apply H0|apply H1|apply H2|apply H3|apply H4; apply IH].
Qed.

Lemma dec_enc_six s : dec_six (enc_six s) = Some s.
Proof.
  destruct s as [[[[[a b] c] d] e] f].
  destruct a, b, c, d, e, f; vm_compute; reflexivity.
Qed.

Lemma dec_six_some c s : dec_six c = Some s -> enc_six s = c.
Proof.
  unfold dec_six. intros H. apply find_some in H. destruct H as [_ H].
  apply beq_eq in H. exact H.
Qed.

(** What characters base64 text consists of. *)
Definition b64_char (b : byte) : bool :=
  in_range 65 90 b || in_range 97 122 b || in_range 48 57 b || beq b "+"%char
  || beq b "/"%char || beq b "="%char.

Lemma enc_six_char s : b64_char (enc_six s) = true /\ enc_six s <> pad.
Proof.
  destruct s as [[[[[a b] c] d] e] f].
  destruct a, b, c, d, e, f; vm_compute; split; (reflexivity || discriminate).
Qed.
Lemma enc_six_pad s : beq (enc_six s) pad = false.
Proof. apply beq_neq. apply enc_six_char. Qed.
Lemma dec_six_pad : dec_six pad = None.
Proof. vm_compute. reflexivity. Qed.

Opaque enc_six dec_six.

Lemma decode_enc3 x y z l :
  decode (enc3 x y z ++ l) =
  match decode l with Some d => Some (x :: y :: z :: d) | None => None end.
Proof.
  destruct x as [x0 x1 x2 x3 x4 x5 x6 x7], y as [y0 y1 y2 y3 y4 y5 y6 y7],
    z as [z0 z1 z2 z3 z4 z5 z6 z7].
  cbn [enc3 app decode].
  assert (Hd : forall r, dec4 (enc_six (x7, x6, x5, x4, x3, x2))
                (enc_six (x1, x0, y7, y6, y5, y4)) (enc_six (y3, y2, y1, y0, z7, z6))
                (enc_six (z5, z4, z3, z2, z1, z0)) = Some r ->
                r = [Ascii x0 x1 x2 x3 x4 x5 x6 x7; Ascii y0 y1 y2 y3 y4 y5 y6 y7;
                     Ascii z0 z1 z2 z3 z4 z5 z6 z7]).
  { intros r. unfold dec4. rewrite !dec_enc_six. intros H; inversion H; reflexivity. }
  destruct l as [|a l].
  - unfold dec_last. rewrite enc_six_pad. unfold dec4. rewrite !dec_enc_six. reflexivity.
  - unfold dec4 in *. rewrite !dec_enc_six in *.
    destruct (decode (a :: l)); reflexivity.
Qed.

Theorem decode_encode b : decode (encode b) = Some b.
Proof.
  induction b as [|x|x y|x y z l IH] using list_ind3.
  - reflexivity.
  - destruct x as [x0 x1 x2 x3 x4 x5 x6 x7]. cbn [encode enc1 decode]. unfold dec_last, dec2.
    rewrite !beq_refl, !dec_enc_six. reflexivity.
  - destruct x as [x0 x1 x2 x3 x4 x5 x6 x7], y as [y0 y1 y2 y3 y4 y5 y6 y7].
    cbn [encode enc2 decode]. unfold dec_last, dec3.
    rewrite beq_refl, enc_six_pad, !dec_enc_six. reflexivity.
  - cbn [encode]. rewrite decode_enc3, IH. reflexivity.
Qed.

Lemma dec4_some a b c d r :
  dec4 a b c d = Some r -> exists x y z, r = [x; y; z] /\ [a; b; c; d] = enc3 x y z.
Proof.
  unfold dec4.
  destruct (dec_six a) as [[[[[[a5 a4] a3] a2] a1] a0]|] eqn:Ea; [|discriminate].
  destruct (dec_six b) as [[[[[[b5 b4] b3] b2] b1] b0]|] eqn:Eb; [|discriminate].
  destruct (dec_six c) as [[[[[[c5 c4] c3] c2] c1] c0]|] eqn:Ec; [|discriminate].
  destruct (dec_six d) as [[[[[[d5 d4] d3] d2] d1] d0]|] eqn:Ed; [|discriminate].
  intros H; inversion H; subst r.
  do 3 eexists; split; [reflexivity|]. cbn [enc3].
  apply dec_six_some in Ea, Eb, Ec, Ed. congruence.
Qed.

Lemma dec_last_some a b c d r : dec_last a b c d = Some r -> [a; b; c; d] = encode r.
Proof.
  unfold dec_last. destruct (beq d pad) eqn:Hd.
  - apply beq_eq in Hd; subst d. destruct (beq c pad) eqn:Hc.
    + apply beq_eq in Hc; subst c. unfold dec2.
      destruct (dec_six a) as [[[[[[a5 a4] a3] a2] a1] a0]|] eqn:Ea; [|discriminate].
      destruct (dec_six b) as [[[[[[b5 b4] b3] b2] b1] b0]|] eqn:Eb; [|discriminate].
      destruct b3, b2, b1, b0; try discriminate.
      intros H; inversion H; subst r. cbn [encode enc1].
      apply dec_six_some in Ea, Eb. congruence.
    + unfold dec3.
      destruct (dec_six a) as [[[[[[a5 a4] a3] a2] a1] a0]|] eqn:Ea; [|discriminate].
      destruct (dec_six b) as [[[[[[b5 b4] b3] b2] b1] b0]|] eqn:Eb; [|discriminate].
      destruct (dec_six c) as [[[[[[c5 c4] c3] c2] c1] c0]|] eqn:Ec; [|discriminate].
      destruct c1, c0; try discriminate.
      intros H; inversion H; subst r. cbn [encode enc2].
      apply dec_six_some in Ea, Eb, Ec. congruence.
  - intros H. apply dec4_some in H. destruct H as [x [y [z [-> E]]]].
    rewrite E. cbn [encode]. rewrite app_nil_r. reflexivity.
Qed.

Theorem decode_canonical s b : decode s = Some b -> s = encode b.
Proof.
  revert b. induction s as [|x|x y|x y z|a b c d l IH] using list_ind4; intros r;
    try (simpl; discriminate).
  - simpl. intros H; inversion H; reflexivity.
  - cbn [decode]. destruct l as [|a' l].
    + intros H; apply dec_last_some in H. exact H.
    + destruct (dec4 a b c d) as [q|] eqn:E; [|discriminate].
      destruct (decode (a' :: l)) as [q'|] eqn:E'; [|discriminate].
      intros H; inversion H; subst r.
      apply dec4_some in E. destruct E as [x [y [z [-> E]]]].
      cbn [app encode]. rewrite <- (IH q' eq_refl), <- E. reflexivity.
Qed.

Lemma encode_inj a b : encode a = encode b -> a = b.
Proof.
  intros H. assert (Some a = Some b) by (rewrite <- !decode_encode, H; reflexivity). congruence.
Qed.

Lemma encode_chars b : forallb b64_char (encode b) = true.
Proof.
  induction b as [|x|x y|x y z l IH] using list_ind3.
  - reflexivity.
  - destruct x. cbn [encode enc1 forallb].
    rewrite !(proj1 (enc_six_char _)). reflexivity.
  - destruct x, y. cbn [encode enc2 forallb].
    rewrite !(proj1 (enc_six_char _)). reflexivity.
  - destruct x, y, z. cbn [encode enc3 forallb app].
    rewrite !(proj1 (enc_six_char _)), IH. reflexivity.
Qed.

Lemma encode_no (c : byte) b : b64_char c = false -> ~ In c (encode b).
Proof.
  intros Hc Hi. pose proof (encode_chars b) as H. rewrite forallb_forall in H.
  apply H in Hi. congruence.
Qed.

Lemma encode_length b : length (encode b) = 4 * ((length b + 2) / 3).
Proof.
  induction b as [|x|x y|x y z l IH] using list_ind3.
  - reflexivity.
  - destruct x; reflexivity.
  - destruct x, y; reflexivity.
  - destruct x, y, z. cbn [encode enc3 app length]. rewrite IH.
    replace (S (S (S (length l))) + 2) with (length l + 2 + 1 * 3) by lia.
    rewrite Nat.div_add by lia. lia.
Qed.
