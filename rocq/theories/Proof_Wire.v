(** The model's encodings are the standard ones. *)
From Coq Require Import List Bool NArith Ascii Lia ZArith ZifyN ZifyBool.
From Verif Require Import Bytes Base64 Num BytesFacts Base64Facts NumFacts Spec_Wire.
Import ListNotations.

Lemma bits_of_ascii a b c d e f g h : bits_of (Ascii a b c d e f g h) = [h; g; f; e; d; c; b; a].
Proof. destruct a, b, c, d, e, f, g, h; vm_compute; reflexivity. Qed.

Lemma enc_six_rfc a b c d e f :
  enc_six (a, b, c, d, e, f) = rfc_digit (number_of_bits [a; b; c; d; e; f]).
Proof. destruct a, b, c, d, e, f; vm_compute; reflexivity. Qed.

Lemma rfc_encode_3 x y z l :
  rfc_encode (x :: y :: z :: l) = rfc_encode [x; y; z] ++ rfc_encode l.
Proof.
  destruct x as [x0 x1 x2 x3 x4 x5 x6 x7], y as [y0 y1 y2 y3 y4 y5 y6 y7],
    z as [z0 z1 z2 z3 z4 z5 z6 z7].
  unfold rfc_encode. cbn [flat_map]. rewrite !bits_of_ascii. rewrite !app_nil_r.
  cbn [app groups map]. set (t := map _ (groups (flat_map bits_of l))).
  cbn [length]. change ((4 - 4 mod 4) mod 4) with 0. cbn [repeat app].
  do 4 f_equal. f_equal. f_equal.
  replace (S (S (S (S (length t))))) with (length t + 1 * 4) by lia.
  rewrite Nat.mod_add by discriminate. reflexivity.
Qed.

Theorem encode_rfc b : encode b = rfc_encode b.
Proof.
  induction b as [|x|x y|x y z l IH] using list_ind3.
  - reflexivity.
  - destruct x as [x0 x1 x2 x3 x4 x5 x6 x7]. cbn [encode enc1]. rewrite !enc_six_rfc.
    unfold rfc_encode. cbn [flat_map]. rewrite bits_of_ascii. reflexivity.
  - destruct x as [x0 x1 x2 x3 x4 x5 x6 x7], y as [y0 y1 y2 y3 y4 y5 y6 y7].
    cbn [encode enc2]. rewrite !enc_six_rfc.
    unfold rfc_encode. cbn [flat_map]. rewrite !bits_of_ascii. reflexivity.
  - rewrite rfc_encode_3, <- IH.
    change (encode (x :: y :: z :: l)) with (enc3 x y z ++ encode l). f_equal.
    destruct x as [x0 x1 x2 x3 x4 x5 x6 x7], y as [y0 y1 y2 y3 y4 y5 y6 y7],
      z as [z0 z1 z2 z3 z4 z5 z6 z7]. cbn [enc3]. rewrite !enc_six_rfc.
    unfold rfc_encode. cbn [flat_map]. rewrite !bits_of_ascii. reflexivity.
Qed.

Theorem decode_rfc s b : decode s = Some b <-> s = rfc_encode b.
Proof.
  rewrite <- encode_rfc. split.
  - apply decode_canonical.
  - intros ->. apply decode_encode.
Qed.

(** ** Decimal numbers *)
Lemma is_digit_decimal c : is_digit c = true <-> decimal_digit c.
Proof. unfold is_digit, decimal_digit, in_range. lia. Qed.

Lemma digit_val_decimal c d : digit_val c = Some d <-> decimal_digit c /\ d = (N_of_ascii c - 48)%N.
Proof.
  unfold digit_val, decimal_digit, in_range.
  destruct (_ && _) eqn:E; split.
  - intros [= <-]. split; [lia|reflexivity].
  - intros [_ ->]. reflexivity.
  - discriminate.
  - intros [H _]. lia.
Qed.

Definition value_from (n : N) (l : bytes) : N :=
  fold_left (fun n b => (10 * n + (N_of_ascii b - 48))%N) l n.

Lemma value_from_ge n l : (n <= value_from n l)%N.
Proof.
  revert n. induction l as [|c l IH]; intros n; cbn [value_from fold_left].
  - apply N.le_refl.
  - eapply N.le_trans; [|apply IH]. lia.
Qed.

Lemma parse_digits_iff l n v :
  (n <= u32_max)%N ->
  parse_digits l n = Some v <->
  Forall decimal_digit l /\ v = value_from n l /\ (v <= u32_max)%N.
Proof.
  revert n. induction l as [|c l IH]; intros n Hn; cbn [parse_digits].
  - cbn [value_from fold_left]. split.
    + intros [= <-]. repeat split; [constructor|assumption].
    + intros (_ & -> & _). reflexivity.
  - destruct (digit_val c) as [d|] eqn:E.
    + apply digit_val_decimal in E. destruct E as [Hc ->].
      replace (n * 10)%N with (10 * n)%N by lia.
      destruct (N.leb_spec (10 * n + (N_of_ascii c - 48))%N u32_max) as [Hl|Hl].
      * rewrite IH by assumption. change (value_from n (c :: l)) with
          (value_from (10 * n + (N_of_ascii c - 48)) l).
        split; intros (H1 & H2 & H3); repeat split; auto.
        inversion H1; assumption.
      * split; [discriminate|]. intros (_ & -> & H3). exfalso.
        change (value_from n (c :: l)) with (value_from (10 * n + (N_of_ascii c - 48)) l) in H3.
        pose proof (value_from_ge (10 * n + (N_of_ascii c - 48))%N l). lia.
    + split; [discriminate|]. intros (H & _). inversion H as [|? ? Hc _]; subst.
      exfalso. assert (E2 : digit_val c = Some (N_of_ascii c - 48)%N)
        by (apply digit_val_decimal; auto). congruence.
Qed.

Theorem parse_u32_iff l n :
  parse_u32 l = Some n <->
  exists d, (l = d \/ l = "+"%char :: d) /\ d <> [] /\ Forall decimal_digit d /\
    n = decimal_value d /\ (n < 2 ^ 32)%N.
Proof.
  assert (Hu : forall k, (k < 2 ^ 32 <-> k <= u32_max)%N).
  { intros k. change (2 ^ 32)%N with 4294967296%N. unfold u32_max. lia. }
  setoid_rewrite Hu. clear Hu.
  assert (H0 : (0 <= u32_max)%N) by (unfold u32_max; lia).
  unfold parse_u32. destruct l as [|c r].
  { split; [discriminate|]. intros (d & [<-|E] & Hd & _); [congruence|discriminate]. }
  destruct (beq c "+"%char) eqn:E.
  - apply beq_eq in E. subst c. split.
    + destruct r as [|c r]; [discriminate|]. intros H. apply parse_digits_iff in H; [|assumption].
      destruct H as (H1 & H2 & H3). exists (c :: r). repeat split; auto. discriminate.
    + intros (d & [<-|E] & Hd & Hf & Hn & Hm).
      * exfalso. inversion Hf as [|? ? Hc _]; subst. unfold decimal_digit in Hc.
        destruct Hc as [Hc _]. apply Hc. reflexivity.
      * injection E as ->. destruct d as [|c d]; [congruence|].
        apply parse_digits_iff; auto.
  - split.
    + intros H. apply parse_digits_iff in H; [|assumption]. destruct H as (H1 & H2 & H3).
      exists (c :: r). repeat split; auto. discriminate.
    + intros (d & [<-|E2] & Hd & Hf & Hn & Hm).
      * apply parse_digits_iff; auto.
      * exfalso. injection E2 as -> _. vm_compute in E. discriminate.
Qed.

Lemma digit_code n : (n < 10)%N -> N_of_ascii (digit n) = (48 + n)%N.
Proof. intros H. unfold digit. apply N_ascii_embedding. lia. Qed.

Lemma fmt_fuel_value f n acc :
  (n < 2 ^ N.of_nat f)%N ->
  exists l, fmt_fuel (S f) n acc = l ++ acc /\ l <> [] /\ Forall decimal_digit l /\
    decimal_value l = n /\ (forall r, l = "0"%char :: r -> r = []).
Proof.
  revert n acc. induction f as [|f IH]; intros n acc Hn.
  - assert (n = 0%N) by (cbn in Hn; lia). subst n. cbn [fmt_fuel].
    replace (0 <? 10)%N with true by reflexivity.
    exists [digit 0]. repeat split.
    + discriminate.
    + constructor; [|constructor]. vm_compute. split; discriminate.
    + intros r [= <-]. reflexivity.
  - remember (S f) as f1. cbn [fmt_fuel]. subst f1.
    destruct (N.ltb_spec n 10) as [Hl|Hl].
    + exists [digit n]. rewrite N.mod_small by assumption. repeat split.
      * discriminate.
      * constructor; [|constructor]. unfold decimal_digit. rewrite digit_code by assumption. lia.
      * unfold decimal_value. cbn [fold_left]. rewrite digit_code by assumption. lia.
      * intros r [= _ <-]. reflexivity.
    + assert (Hd : (n / 10 < 2 ^ N.of_nat f)%N).
      { rewrite Nnat.Nat2N.inj_succ, N.pow_succ_r' in Hn.
        apply N.div_lt_upper_bound; [discriminate|]. lia. }
      assert (Hm : (n mod 10 < 10)%N) by (apply N.mod_lt; discriminate).
      pose proof (N.div_mod n 10 ltac:(discriminate)) as Hdm.
      destruct (IH (n / 10)%N (digit (n mod 10) :: acc) Hd) as (l & E & Hne & Hf & Hv & Hz).
      exists (l ++ [digit (n mod 10)]). rewrite E, <- app_assoc. repeat split.
      * destruct l; discriminate.
      * apply Forall_app. split; [assumption|]. constructor; [|constructor].
        unfold decimal_digit. rewrite digit_code by assumption. lia.
      * unfold decimal_value. rewrite fold_left_app. fold (decimal_value l). rewrite Hv.
        cbn [fold_left]. rewrite digit_code by assumption. lia.
      * intros r Hr. exfalso. destruct l as [|c l]; [congruence|].
        injection Hr as -> _. specialize (Hz l eq_refl). subst l.
        unfold decimal_value in Hv. cbn [fold_left] in Hv.
        change (N_of_ascii "0"%char) with 48%N in Hv. 
        assert (1 <= n / 10)%N by (apply N.div_le_lower_bound; [discriminate|lia]). lia.
Qed.

Theorem fmt_u32_decimal n : decimal (fmt_u32 n) n.
Proof.
  unfold fmt_u32, decimal.
  destruct (fmt_fuel_value (N.size_nat n) n [] (size_nat_gt n)) as (l & -> & H).
  rewrite app_nil_r. exact H.
Qed.

(** The usual notation is unique. *)
Lemma value_from_lower l : Forall decimal_digit l -> forall n,
  (n * 10 ^ N.of_nat (length l) <= value_from n l < (n + 1) * 10 ^ N.of_nat (length l))%N.
Proof.
  induction l as [|c l IH]; intros H n.
  - cbn [value_from fold_left length]. change (10 ^ N.of_nat 0)%N with 1%N. lia.
  - inversion H as [|? ? Hc Hl]; subst. unfold decimal_digit in Hc.
    change (value_from n (c :: l)) with (value_from (10 * n + (N_of_ascii c - 48)) l).
    specialize (IH Hl (10 * n + (N_of_ascii c - 48))%N).
    cbn [length]. rewrite Nnat.Nat2N.inj_succ, N.pow_succ_r'.
    set (p := (10 ^ N.of_nat (length l))%N) in *. nia.
Qed.

Lemma value_from_inj l1 : forall l2 n1 n2, length l1 = length l2 ->
  Forall decimal_digit l1 -> Forall decimal_digit l2 ->
  value_from n1 l1 = value_from n2 l2 -> n1 = n2 /\ l1 = l2.
Proof.
  induction l1 as [|c l1 IH]; intros [|d l2] n1 n2 Hlen H1 H2 E; try discriminate.
  - split; [exact E|reflexivity].
  - inversion H1 as [|? ? Hc H1']; inversion H2 as [|? ? Hd H2']; subst.
    injection Hlen as Hlen.
    change (value_from n1 (c :: l1)) with (value_from (10 * n1 + (N_of_ascii c - 48)) l1) in E.
    change (value_from n2 (d :: l2)) with (value_from (10 * n2 + (N_of_ascii d - 48)) l2) in E.
    destruct (IH _ _ _ Hlen H1' H2' E) as [E1 ->]. unfold decimal_digit in Hc, Hd.
    assert (N_of_ascii c = N_of_ascii d) by lia.
    split; [lia|]. f_equal. rewrite <- (ascii_N_embedding c), <- (ascii_N_embedding d). congruence.
Qed.

Lemma decimal_ge l n : decimal l n -> length l <> 1 -> (10 ^ N.of_nat (length l - 1) <= n)%N.
Proof.
  intros (Hne & Hf & <- & Hz) Hlen. destruct l as [|c l]; [congruence|].
  cbn [length] in *. rewrite Nat.sub_succ, Nat.sub_0_r.
  inversion Hf as [|? ? Hc Hl]; subst.
  change (decimal_value (c :: l)) with (value_from (10 * 0 + (N_of_ascii c - 48)) l).
  pose proof (value_from_lower l Hl (10 * 0 + (N_of_ascii c - 48))%N) as [B _].
  unfold decimal_digit in Hc.
  assert (N_of_ascii c <> 48%N).
  { intros E. assert (c = "0"%char) by (rewrite <- (ascii_N_embedding c), E; reflexivity).
    subst c. specialize (Hz l eq_refl). subst l. cbn in Hlen. congruence. }
  set (p := (10 ^ N.of_nat (length l))%N) in *.
  eapply N.le_trans; [|exact B]. replace p with (1 * p)%N at 1 by lia.
  apply N.mul_le_mono_r. lia.
Qed.
Lemma decimal_lt l n : decimal l n -> (n < 10 ^ N.of_nat (length l))%N.
Proof.
  intros (Hne & Hf & <- & _). pose proof (value_from_lower l Hf 0%N) as [_ B].
  change (decimal_value l) with (value_from 0 l). rewrite N.add_0_l, N.mul_1_l in B. exact B.
Qed.

Theorem decimal_unique l1 l2 n : decimal l1 n -> decimal l2 n -> l1 = l2.
Proof.
  assert (Hle : forall l1 l2, decimal l1 n -> decimal l2 n -> length l1 <= length l2).
  { intros a b Ha Hb. destruct (Nat.le_gt_cases (length a) (length b)) as [L|L]; [assumption|].
    exfalso. destruct Hb as [Hb0 Hb']. assert (length b <> 0) by (destruct b; [congruence|discriminate]).
    assert (G : (10 ^ N.of_nat (length a - 1) <= n)%N) by (apply decimal_ge; [assumption|lia]).
    assert (S : (n < 10 ^ N.of_nat (length b))%N) by (apply decimal_lt; split; assumption).
    assert (10 ^ N.of_nat (length b) <= 10 ^ N.of_nat (length a - 1))%N
      by (apply N.pow_le_mono_r; [discriminate|lia]).
    lia. }
  intros H1 H2. pose proof (Hle _ _ H1 H2). pose proof (Hle _ _ H2 H1).
  destruct H1 as (_ & F1 & V1 & _), H2 as (_ & F2 & V2 & _).
  apply (value_from_inj l1 l2 0%N 0%N); [apply Nat.le_antisymm; assumption|assumption|assumption|].
  change (decimal_value l1 = decimal_value l2). congruence.
Qed.

Theorem fmt_u32_exact l n : l = fmt_u32 n <-> decimal l n.
Proof.
  split; [intros ->; apply fmt_u32_decimal|].
  intros H. exact (decimal_unique _ _ _ H (fmt_u32_decimal n)).
Qed.

(** ** Exclusive or *)
Lemma ascii_of_N_bits n :
  ascii_of_N n = Ascii (N.testbit n 0) (N.testbit n 1) (N.testbit n 2) (N.testbit n 3)
                       (N.testbit n 4) (N.testbit n 5) (N.testbit n 6) (N.testbit n 7).
Proof.
  destruct n as [|p]; [reflexivity|].
  do 8 (try (destruct p as [p|p|]; [| |reflexivity])); reflexivity.
Qed.
Lemma N_of_ascii_bits a b c d e f g h :
  let n := N_of_ascii (Ascii a b c d e f g h) in
  (N.testbit n 0 = a /\ N.testbit n 1 = b /\ N.testbit n 2 = c /\ N.testbit n 3 = d) /\
  (N.testbit n 4 = e /\ N.testbit n 5 = f /\ N.testbit n 6 = g /\ N.testbit n 7 = h).
Proof. destruct a, b, c, d, e, f, g, h; vm_compute; repeat split. Qed.
Lemma xorb8_lxor a b : xorb8 a b = ascii_of_N (N.lxor (N_of_ascii a) (N_of_ascii b)).
Proof.
  destruct a as [a0 a1 a2 a3 a4 a5 a6 a7], b as [b0 b1 b2 b3 b4 b5 b6 b7].
  unfold xorb8. rewrite ascii_of_N_bits, !N.lxor_spec.
  destruct (N_of_ascii_bits a0 a1 a2 a3 a4 a5 a6 a7) as [(-> & -> & -> & ->) (-> & -> & -> & ->)].
  destruct (N_of_ascii_bits b0 b1 b2 b3 b4 b5 b6 b7) as [(-> & -> & -> & ->) (-> & -> & -> & ->)].
  reflexivity.
Qed.

Theorem xor_zip_text x y : xor_zip x y = xor_text x y.
Proof.
  unfold xor_text. revert y. induction x as [|a x IH]; intros [|b y]; try reflexivity.
  cbn [xor_zip combine map fst snd]. rewrite xorb8_lxor, IH. reflexivity.
Qed.

Theorem parse_written n : (n < 2 ^ 32)%N -> parse_u32 (fmt_u32 n) = Some n.
Proof.
  intros H. apply parse_u32_iff. exists (fmt_u32 n).
  destruct (fmt_u32_decimal n) as (H1 & H2 & H3 & _). auto.
Qed.

Theorem parse_not_posit : ~ forall l n, parse_u32 l = Some n -> decimal l n.
Proof.
  intros H. destruct (H (lit "+4096") 4096%N eq_refl) as (_ & F & _).
  inversion F as [|? ? Hc _]. destruct Hc as [Hc _]. apply Hc. reflexivity.
Qed.
