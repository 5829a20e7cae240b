(** UTF-8 validity of concatenations. *)
From Coq Require Import Lia.
From Verif Require Import Bytes Utf8 BytesFacts.

Lemma utf8_app_len n : forall a b, length a <= n -> utf8_valid a = true ->
  utf8_valid (a ++ b) = utf8_valid b.
Proof.
  induction n as [|n IH]; intros a b Hn Ha.
  { destruct a; [reflexivity|simpl in Hn; lia]. }
  destruct a as [|x a]; [reflexivity|].
  cbn [app utf8_valid] in *. simpl in Hn.
  destruct (in_range 0 127 x); [apply IH; [lia|assumption]|].
  destruct (in_range 194 223 x).
  { destruct a as [|y a]; [discriminate|]. cbn [app]. simpl in Hn.
    destruct (cont y); [|discriminate]. apply IH; [lia|assumption]. }
  destruct (in_range 224 239 x).
  { destruct a as [|y [|z a]]; try discriminate. cbn [app]. simpl in Hn.
    destruct (if in_range 224 224 x then _ else _); [|discriminate].
    destruct (cont z); [|discriminate]. apply IH; [lia|assumption]. }
  destruct (in_range 240 244 x); [|discriminate].
  destruct a as [|y [|z [|t a]]]; try discriminate. cbn [app]. simpl in Hn.
  destruct (if in_range 240 240 x then _ else _); [|discriminate].
  destruct (cont z); [|discriminate]. destruct (cont t); [|discriminate].
  apply IH; [lia|assumption].
Qed.

Lemma utf8_app a b : utf8_valid a = true -> utf8_valid (a ++ b) = utf8_valid b.
Proof. apply (utf8_app_len (length a)). lia. Qed.

Lemma ascii_not_cont lo hi c : in_range 0 127 c = true -> (128 <= lo)%N -> in_range lo hi c = false.
Proof.
  unfold in_range. intros H Hlo. apply Bool.andb_true_iff in H. destruct H as [_ H].
  apply N.leb_le in H. apply Bool.andb_false_iff. left. apply N.leb_gt. lia.
Qed.

(** An ASCII byte is never part of a longer character. *)
Lemma utf8_cut_len n : forall a c r, length a <= n -> in_range 0 127 c = true ->
  utf8_valid (a ++ c :: r) = true -> utf8_valid a = true /\ utf8_valid r = true.
Proof.
  induction n as [|n IH]; intros a c r Hn Hc H.
  { destruct a; [|simpl in Hn; lia]. cbn [app utf8_valid] in H. rewrite Hc in H. auto. }
  destruct a as [|x a]; [cbn [app utf8_valid] in H; rewrite Hc in H; auto|].
  assert (K : forall lo hi, (128 <= lo)%N -> in_range lo hi c = false)
    by (intros; apply ascii_not_cont; assumption).
  assert (Kc : cont c = false) by (apply K; lia).
  cbn [app utf8_valid] in *. simpl in Hn.
  destruct (in_range 0 127 x); [apply (IH a c r); [lia|assumption|assumption]|].
  destruct (in_range 194 223 x).
  { destruct a as [|y a]; cbn [app] in H.
    - rewrite Kc in H. discriminate.
    - simpl in Hn. destruct (cont y); [|discriminate]. apply (IH a c r); [lia|assumption|assumption]. }
  destruct (in_range 224 239 x).
  { destruct a as [|y [|z a]]; cbn [app] in H.
    - destruct r; [discriminate|].
      rewrite Kc, !K in H by lia. destruct (in_range 224 224 x), (in_range 237 237 x); discriminate.
    - rewrite Kc, Bool.andb_false_r in H. discriminate.
    - simpl in Hn. destruct (if in_range 224 224 x then _ else _); [|discriminate].
      destruct (cont z); [|discriminate]. apply (IH a c r); [lia|assumption|assumption]. }
  destruct (in_range 240 244 x); [|discriminate].
  destruct a as [|y [|z [|t a]]]; cbn [app] in H.
  - destruct r as [|? [|? ?]]; try discriminate.
    rewrite Kc, !K in H by lia. destruct (in_range 240 240 x), (in_range 244 244 x); discriminate.
  - destruct r; [discriminate|]. rewrite Kc, Bool.andb_false_r in H. discriminate.
  - rewrite Kc, Bool.andb_false_r in H. discriminate.
  - simpl in Hn. destruct (if in_range 240 240 x then _ else _); [|discriminate].
    destruct (cont z); [|discriminate]. destruct (cont t); [|discriminate].
    apply (IH a c r); [lia|assumption|assumption].
Qed.

Lemma utf8_cut a c r : in_range 0 127 c = true -> utf8_valid (a ++ c :: r) = true ->
  utf8_valid a = true /\ utf8_valid r = true.
Proof. apply (utf8_cut_len (length a)). lia. Qed.
