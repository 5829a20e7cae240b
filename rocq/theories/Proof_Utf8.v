(** The UTF-8 check accepts exactly the encodings of Unicode text (C66). *)
From Coq Require Import Lia ZArith ZifyN ZifyBool List.
From Verif Require Import Bytes Utf8 Spec_Wire Utf8Facts.
Import ListNotations.
Local Open Scope N_scope.
Ltac Zify.zify_post_hook ::= Z.to_euclidean_division_equations.

Lemma chr_val n : n < 256 -> N_of_ascii (chr n) = n.
Proof. apply N_ascii_embedding. Qed.
Lemma chr_is b n : N_of_ascii b = n -> b = chr n.
Proof. intros <-. symmetry. apply ascii_N_embedding. Qed.

Lemma in_range_iff lo hi b : in_range lo hi b = true <-> lo <= N_of_ascii b <= hi.
Proof. unfold in_range. rewrite andb_true_iff, !N.leb_le. reflexivity. Qed.
Lemma in_range_not lo hi b : in_range lo hi b = false <-> ~ (lo <= N_of_ascii b <= hi).
Proof. rewrite <- in_range_iff. destruct (in_range lo hi b); split; congruence. Qed.

Ltac ranges :=
  repeat match goal with
  | H : in_range _ _ _ = true |- _ => apply in_range_iff in H
  | H : in_range _ _ _ = false |- _ => apply in_range_not in H
  end.

Lemma valid_text_len k : forall l, (length l <= k)%nat -> utf8_valid l = true -> utf8_text l.
Proof.
  induction k as [|k IH]; intros l Hl H.
  { destruct l; [|cbn in Hl; lia]. exists []. split; [constructor|reflexivity]. }
  destruct l as [|a r]; [exists []; split; [constructor|reflexivity]|].
  assert (R : forall n c t, a :: r = c ++ t -> (length t <= k)%nat -> utf8_valid t = true ->
            scalar n -> utf8_char n = c -> utf8_text (a :: r)).
  { intros n c t E Ht Hv Hn Hc. destruct (IH t Ht Hv) as [cps [Hs ->]].
    exists (n :: cps). split; [constructor; assumption|]. rewrite E. cbn [flat_map].
    rewrite Hc. reflexivity. }
  cbn [utf8_valid] in H. cbn [length] in Hl.
  pose proof (N_ascii_bounded a) as Ba.
  destruct (in_range 0 127 a) eqn:E1.
  { ranges. apply (R (N_of_ascii a) [a] r); [reflexivity|lia|exact H|left; lia|].
    unfold utf8_char. replace (N_of_ascii a <? 128) with true by lia. f_equal. symmetry. apply chr_is. reflexivity. }
  destruct (in_range 194 223 a) eqn:E2.
  { destruct r as [|b r]; [discriminate|]. apply andb_prop in H. destruct H as [Hb H].
    unfold cont in Hb. ranges. cbn [length] in Hl.
    apply (R ((N_of_ascii a - 192) * 64 + (N_of_ascii b - 128)) [a; b] r); [reflexivity|lia|exact H|left; lia|].
    unfold utf8_char. replace (_ <? 128) with false by lia. replace (_ <? 2048) with true by lia.
    f_equal; [|f_equal]; symmetry; apply chr_is; lia. }
  destruct (in_range 224 239 a) eqn:E3.
  { destruct r as [|b [|c r]]; try discriminate. apply andb_prop in H. destruct H as [H Hr].
    apply andb_prop in H. destruct H as [Hb Hc]. unfold cont in *. cbn [length] in Hl.
    assert (Y : 128 <= N_of_ascii b <= 191 /\ (N_of_ascii a = 224 -> 160 <= N_of_ascii b) /\
                (N_of_ascii a = 237 -> N_of_ascii b <= 159)).
    { destruct (in_range 224 224 a) eqn:F1; [|destruct (in_range 237 237 a) eqn:F2];
        ranges; lia. }
    ranges.
    assert (En : exists n, n = (N_of_ascii a - 224) * 4096 + (N_of_ascii b - 128) * 64 + (N_of_ascii c - 128)) by eauto.
    destruct En as [n En].
    assert (Hn : 2048 <= n < 65536 /\ scalar n) by (unfold scalar; lia).
    destruct Hn as [Hn Hs].
    apply (R n [a; b; c] r); [reflexivity|lia|exact Hr|exact Hs|].
    unfold utf8_char. replace (n <? 128) with false by lia. replace (n <? 2048) with false by lia.
    replace (n <? 65536) with true by lia.
    f_equal; [|f_equal; [|f_equal]]; symmetry; apply chr_is; lia. }
  destruct (in_range 240 244 a) eqn:E4; [|discriminate].
  destruct r as [|b [|c [|d r]]]; try discriminate. apply andb_prop in H. destruct H as [H Hr].
  apply andb_prop in H. destruct H as [H Hd]. apply andb_prop in H. destruct H as [Hb Hc].
  unfold cont in *. cbn [length] in Hl.
  assert (Y : 128 <= N_of_ascii b <= 191 /\ (N_of_ascii a = 240 -> 144 <= N_of_ascii b) /\
              (N_of_ascii a = 244 -> N_of_ascii b <= 143)).
  { destruct (in_range 240 240 a) eqn:F1; [|destruct (in_range 244 244 a) eqn:F2];
      ranges; lia. }
  ranges.
  assert (En : exists n, n = (N_of_ascii a - 240) * 262144 + (N_of_ascii b - 128) * 4096 + (N_of_ascii c - 128) * 64 + (N_of_ascii d - 128)) by eauto.
    destruct En as [n En].
  assert (Hn : 65536 <= n < 1114112) by lia.
  apply (R n [a; b; c; d] r); [reflexivity|lia|exact Hr|right; lia|].
  unfold utf8_char. replace (n <? 128) with false by lia. replace (n <? 2048) with false by lia.
  replace (n <? 65536) with false by lia.
  f_equal; [|f_equal; [|f_equal; [|f_equal]]]; symmetry; apply chr_is;
    lia.
Qed.

Lemma range_true lo hi n : n < 256 -> lo <= n <= hi -> in_range lo hi (chr n) = true.
Proof. intros H1 H2. apply in_range_iff. rewrite chr_val by exact H1. exact H2. Qed.
Lemma range_false lo hi n : n < 256 -> ~ (lo <= n <= hi) -> in_range lo hi (chr n) = false.
Proof. intros H1 H2. apply in_range_not. rewrite chr_val by exact H1. exact H2. Qed.
Ltac rng :=
  match goal with
  | |- context [in_range ?lo ?hi (chr ?n)] =>
      first [rewrite (range_true lo hi n) by lia | rewrite (range_false lo hi n) by lia]
  end.

Lemma char_valid n r : scalar n -> utf8_valid (utf8_char n ++ r) = utf8_valid r.
Proof.
  intros Hs. unfold scalar in Hs. unfold utf8_char.
  destruct (n <? 128) eqn:E1; [|destruct (n <? 2048) eqn:E2; [|destruct (n <? 65536) eqn:E3]];
    cbn [app utf8_valid]; unfold cont.
  - rng. reflexivity.
  - repeat rng. reflexivity.
  - assert (A : 224 + n / 4096 < 256) by lia. assert (B : 128 + n / 64 mod 64 < 256) by lia.
    do 3 rng. rewrite (range_true 128 191 (128 + n mod 64)) by lia.
    destruct (in_range 224 224 _) eqn:F1; [|destruct (in_range 237 237 _) eqn:F2].
    + apply in_range_iff in F1. rewrite chr_val in F1 by lia. rng. reflexivity.
    + apply in_range_iff in F2. rewrite chr_val in F2 by lia. rng. reflexivity.
    + rng. reflexivity.
  - assert (A : 240 + n / 262144 < 256) by lia. assert (B : 128 + n / 4096 mod 64 < 256) by lia.
    do 4 rng. rewrite (range_true 128 191 (128 + n mod 64)) by lia.
    rewrite (range_true 128 191 (128 + n / 64 mod 64)) by lia.
    destruct (in_range 240 240 _) eqn:F1; [|destruct (in_range 244 244 _) eqn:F2].
    + apply in_range_iff in F1. rewrite chr_val in F1 by lia. rng. reflexivity.
    + apply in_range_iff in F2. rewrite chr_val in F2 by lia. rng. reflexivity.
    + rng. reflexivity.
Qed.

Theorem utf8_exact l : utf8_valid l = true <-> utf8_text l.
Proof.
  split; [apply (valid_text_len (length l)); apply le_n|].
  intros [cps [Hs ->]]. induction Hs as [|n cps Hn Hs IH]; [reflexivity|].
  cbn [flat_map]. rewrite char_valid by exact Hn. exact IH.
Qed.
