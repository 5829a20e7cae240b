(** Decimal formatting and parsing of u32. *)
From Coq Require Import Lia ZArith ZifyN ZifyBool.
From Verif Require Import Bytes Num BytesFacts.
Ltac Zify.zify_post_hook ::= Z.div_mod_to_equations.

Lemma digit_small n : (n < 10)%N -> digit_val (digit n) = Some n.
Proof.
  intros H.
  assert (Hc : (n = 0 \/ n = 1 \/ n = 2 \/ n = 3 \/ n = 4 \/ n = 5 \/ n = 6 \/ n = 7 \/ n = 8 \/ n = 9)%N)
    by lia.
  repeat destruct Hc as [-> | Hc]; try (vm_compute; reflexivity). subst; vm_compute; reflexivity.
Qed.

Definition is_digit (b : byte) : bool := in_range 48 57 b.
Lemma digit_is_digit n : (n < 10)%N -> is_digit (digit n) = true.
Proof.
  intros H. pose proof (digit_small n H) as E. unfold digit_val in E. unfold is_digit.
  destruct (in_range 48 57 (digit n)); [reflexivity|discriminate].
Qed.

Lemma fmt_fuel_parse f n acc :
  (n < 2 ^ N.of_nat f)%N -> (n <= u32_max)%N ->
  parse_digits (fmt_fuel (S f) n acc) 0 = parse_digits acc n.
Proof.
  revert n acc. induction f as [|f IH]; intros n acc Hn Hm.
  - assert (n = 0)%N by (simpl in Hn; lia). subst. reflexivity.
  - remember (S f) as f'. cbn [fmt_fuel].
    destruct (N.ltb_spec n 10) as [Hlt|Hge].
    + rewrite N.mod_small by assumption. cbn [parse_digits].
      rewrite digit_small by assumption.
      rewrite N.mul_0_l, N.add_0_l.
      destruct (N.leb_spec n u32_max); [reflexivity|lia].
    + subst f'. rewrite IH.
      * cbn [parse_digits]. rewrite digit_small by (apply N.mod_lt; lia).
        replace (n / 10 * 10 + n mod 10)%N with n by lia.
        destruct (N.leb_spec n u32_max); [reflexivity|lia].
      * rewrite Nnat.Nat2N.inj_succ, N.pow_succ_r' in Hn. lia.
      * lia.
Qed.

Lemma size_nat_gt n : (n < 2 ^ N.of_nat (N.size_nat n))%N.
Proof.
  destruct n as [|p]; [reflexivity|]. simpl N.size_nat.
  induction p as [p IH|p IH|].
  - simpl Pos.size_nat. rewrite Nnat.Nat2N.inj_succ, N.pow_succ_r'. lia.
  - simpl Pos.size_nat. rewrite Nnat.Nat2N.inj_succ, N.pow_succ_r'. lia.
  - vm_compute. reflexivity.
Qed.

Lemma fmt_fuel_chars f n acc :
  forallb is_digit acc = true -> forallb is_digit (fmt_fuel f n acc) = true.
Proof.
  revert n acc; induction f as [|f IH]; intros n acc H; [assumption|].
  cbn [fmt_fuel].
  assert (H' : forallb is_digit (digit (n mod 10) :: acc) = true).
  { cbn [forallb]. rewrite digit_is_digit by (apply N.mod_lt; lia). assumption. }
  destruct (N.ltb n 10); auto.
Qed.

Lemma fmt_fuel_nonempty f n acc : acc <> [] -> fmt_fuel f n acc <> [].
Proof.
  revert n acc; induction f as [|f IH]; intros n acc H; [assumption|].
  cbn [fmt_fuel]. destruct (N.ltb n 10); [discriminate|]. apply IH; discriminate.
Qed.

Lemma fmt_u32_chars n : forallb is_digit (fmt_u32 n) = true.
Proof. apply fmt_fuel_chars. reflexivity. Qed.

Lemma fmt_u32_nonempty n : fmt_u32 n <> [].
Proof.
  unfold fmt_u32. cbn [fmt_fuel]. destruct (N.ltb n 10); [discriminate|].
  apply fmt_fuel_nonempty. discriminate.
Qed.

Theorem parse_fmt_u32 n : (n <= u32_max)%N -> parse_u32 (fmt_u32 n) = Some n.
Proof.
  intros H. pose proof (fmt_fuel_parse (N.size_nat n) n [] (size_nat_gt n) H) as E.
  change (fmt_fuel (S (N.size_nat n)) n []) with (fmt_u32 n) in E. cbn [parse_digits] in E.
  pose proof (fmt_u32_chars n) as Hc. pose proof (fmt_u32_nonempty n) as Hn.
  destruct (fmt_u32 n) as [|c r]; [congruence|]. cbn [parse_u32].
  destruct (beq c "+"%char) eqn:Ec; [|exact E].
  apply beq_eq in Ec; subst c. cbn in Hc. discriminate.
Qed.

Lemma digits_no c l : is_digit c = false -> forallb is_digit l = true -> ~ In c l.
Proof. intros Hc Hl Hi. rewrite forallb_forall in Hl. apply Hl in Hi. congruence. Qed.

Lemma digits_ascii l : forallb is_digit l = true -> forallb is_ascii l = true.
Proof.
  rewrite !forallb_forall. intros H x Hx. apply H in Hx.
  unfold is_digit, is_ascii, in_range in *. lia.
Qed.
