(** Proofs for C80. *)
From Coq Require Import Lia ZArith ZifyN ZifyBool.
From Verif Require Import Bytes BytesFacts Utf8 Types Spec_Wire Proof_Utf8 Json Spec_Json.

(** * White space and tokens *)
Lemma ws_iff b : j_ws b = true <-> In b [" "%char; chr 9; chr 10; chr 13].
Proof.
  unfold j_ws. rewrite existsb_exists. split.
  - intros [x [H E]]. apply beq_eq in E. subst. exact H.
  - intros H. exists b. split; [exact H|apply beq_refl].
Qed.

Lemma skip_blank w l : blank w -> skip_ws (w ++ l) = skip_ws l.
Proof.
  induction 1 as [|b w H W IH]; [reflexivity|]. cbn [app skip_ws].
  rewrite (proj2 (ws_iff b) H). exact IH.
Qed.

Lemma skip_ws_is l : exists w, blank w /\ l = w ++ skip_ws l.
Proof.
  induction l as [|b l [w [W E]]]; [exists []; split; [constructor|reflexivity]|].
  cbn [skip_ws]. destruct (j_ws b) eqn:B.
  - exists (b :: w). split; [constructor; [apply ws_iff, B|exact W]|]. cbn [app]. now rewrite <- E.
  - exists []. split; [constructor|reflexivity].
Qed.

Lemma skip_ws_head l b r : skip_ws l = b :: r -> j_ws b = false.
Proof.
  induction l as [|c l IH]; cbn [skip_ws]; [discriminate|].
  destruct (j_ws c) eqn:C; [exact IH|]. intros E. injection E as <- <-. exact C.
Qed.

Lemma skip_nows b r : j_ws b = false -> skip_ws (b :: r) = b :: r.
Proof. intros H. cbn [skip_ws]. now rewrite H. Qed.

Lemma skip_ws_nil l : skip_ws l = [] <-> blank l.
Proof.
  split.
  - intros H. destruct (skip_ws_is l) as [w [W E]]. rewrite H, app_nil_r in E. now subst.
  - intros H. rewrite <- (app_nil_r l), skip_blank by exact H. reflexivity.
Qed.

Lemma token_iff c l r : j_ws c = false ->
  token c l = Some r <-> exists w, blank w /\ l = w ++ c :: r.
Proof.
  intros C. unfold token. split.
  - destruct (skip_ws_is l) as [w [W E]]. destruct (skip_ws l) as [|b x]; [discriminate|].
    destruct (beq b c) eqn:B; [|discriminate]. apply beq_eq in B. intros H. injection H as <-. subst b.
    exists w. split; assumption.
  - intros [w [W ->]]. rewrite skip_blank, skip_nows by assumption. now rewrite beq_refl.
Qed.

Lemma token_at c w r : j_ws c = false -> blank w -> token c (w ++ c :: r) = Some r.
Proof. intros C W. apply token_iff; [exact C|]. exists w. split; [exact W|reflexivity]. Qed.

Lemma token_other c b w r : j_ws b = false -> b <> c -> blank w -> token c (w ++ b :: r) = None.
Proof.
  intros B D W. unfold token. rewrite skip_blank, skip_nows by assumption.
  apply beq_neq in D. now rewrite D.
Qed.

(** * Strings *)
Lemma hexval_iff b n : j_hexval b = Some n <-> hexdigit b n.
Proof.
  unfold j_hexval. split.
  - destruct (in_range 48 57 b) eqn:A.
    { apply in_range_iff in A. intros E. injection E as <-.
      replace b with (chr (48 + (N_of_ascii b - 48)))%N at 1.
      - constructor. lia.
      - symmetry. apply chr_is. lia. }
    destruct (in_range 97 102 b) eqn:B.
    { apply in_range_iff in B. intros E. injection E as <-.
      replace b with (chr (87 + (N_of_ascii b - 87)))%N at 1.
      - apply hd_low. lia.
      - symmetry. apply chr_is. lia. }
    destruct (in_range 65 70 b) eqn:C; [|discriminate].
    apply in_range_iff in C. intros E. injection E as <-.
    replace b with (chr (55 + (N_of_ascii b - 55)))%N at 1.
    + apply hd_up. lia.
    + symmetry. apply chr_is. lia.
  - intros H. destruct H as [n H|n H|n H].
    + rewrite range_true by lia. rewrite chr_val by lia. f_equal. lia.
    + rewrite range_false by lia. rewrite range_true by lia. rewrite chr_val by lia. f_equal. lia.
    + rewrite range_false by lia. rewrite range_false by lia. rewrite range_true by lia.
      rewrite chr_val by lia. f_equal. lia.
Qed.

Lemma hex4_iff a b c d n : j_hex4 a b c d = Some n <-> hex4 [a; b; c; d] n.
Proof.
  unfold j_hex4. split.
  - destruct (j_hexval a) as [i|] eqn:A; [|discriminate].
    destruct (j_hexval b) as [j|] eqn:B; [|discriminate].
    destruct (j_hexval c) as [k|] eqn:C; [|discriminate].
    destruct (j_hexval d) as [l|] eqn:D; [|discriminate].
    intros E. injection E as <-. apply hexval_iff in A, B, C, D.
    replace (((i * 16 + j) * 16 + k) * 16 + l)%N with (4096 * i + 256 * j + 16 * k + l)%N by lia.
    constructor; assumption.
  - intros H. inversion H as [a' b' c' d' i j k l A B C D E1 E2]; subst.
    apply hexval_iff in A, B, C, D. rewrite A, B, C, D. f_equal. lia.
Qed.

Lemma hex4_shape h n : hex4 h n -> exists a b c d, h = [a; b; c; d] /\ j_hex4 a b c d = Some n.
Proof.
  intros H. pose proof H as G. inversion H; subst. do 4 eexists. split; [reflexivity|].
  apply hex4_iff, G.
Qed.

Lemma short_iff c d : j_short c = Some d <-> In (c, d) shorts.
Proof.
  split.
  - unfold j_short.
    repeat match goal with
    | |- context [beq c ?x] =>
        let B := fresh "B" in destruct (beq c x) eqn:B;
        [apply beq_eq in B; subst c; intros E; injection E as <-; cbn; tauto|clear B]
    end. discriminate.
  - intros H. repeat (destruct H as [H|H]; [injection H as <- <-; reflexivity|]). destruct H.
Qed.

Lemma u_not_short : j_short "u"%char = None.
Proof. reflexivity. Qed.

Lemma unescaped_iff b : unescaped b <->
  beq b j_quote = false /\ beq b j_back = false /\ N.ltb (N_of_ascii b) 32 = false.
Proof.
  unfold unescaped, j_quote, j_back. rewrite !beq_neq. split; intros H.
  - destruct H as [A [B C]]. repeat split; try assumption. apply N.ltb_ge. exact A.
  - destruct H as [A [B C]]. repeat split; try assumption. apply N.ltb_ge. exact C.
Qed.

Lemma raw_sound n : forall l x rest, length l <= n -> raw_str l = Some (x, rest) ->
  string_body x /\ l = x ++ chr 34 :: rest.
Proof.
  induction n as [|n IH]; intros l x rest L; (destruct l as [|b r]; [discriminate|]);
    cbn [length] in L; [lia|]. cbn [raw_str].
  destruct (beq b j_quote) eqn:Q.
  { apply beq_eq in Q. intros E. injection E as <- <-. subst b. split; [constructor|reflexivity]. }
  destruct (beq b j_back) eqn:B.
  - apply beq_eq in B. subst b. destruct r as [|c r1]; [discriminate|]. cbn [length] in L.
    destruct (j_short c) as [d|] eqn:S.
    + destruct (raw_str r1) as [[y z]|] eqn:R; [|discriminate]. intros E. injection E as <- <-.
      apply IH in R; [|lia]. destruct R as [R ->]. split; [|reflexivity].
      eapply sb_short; [apply short_iff, S|exact R].
    + destruct (beq c "u"%char) eqn:U; [|discriminate]. apply beq_eq in U. subst c.
      destruct r1 as [|h1 [|h2 [|h3 [|h4 r2]]]]; try discriminate.
      destruct (j_hex4 h1 h2 h3 h4) as [m|] eqn:H; [|discriminate].
      destruct (raw_str r2) as [[y z]|] eqn:R; [|discriminate]. intros E. injection E as <- <-.
      apply IH in R; [|cbn [length] in L; lia]. destruct R as [R ->]. split; [|reflexivity].
      apply (sb_hex [h1; h2; h3; h4] m y); [apply hex4_iff, H|exact R].
  - destruct (N.ltb (N_of_ascii b) 32) eqn:C; [discriminate|].
    destruct (raw_str r) as [[y z]|] eqn:R; [|discriminate]. intros E. injection E as <- <-.
    apply IH in R; [|lia]. destruct R as [R ->]. split; [|reflexivity].
    constructor; [apply unescaped_iff; auto|exact R].
Qed.

Lemma raw_complete x rest : string_body x -> raw_str (x ++ chr 34 :: rest) = Some (x, rest).
Proof.
  induction 1 as [|b r U S IH|c d r I S IH|h n r H S IH].
  - reflexivity.
  - apply unescaped_iff in U. destruct U as [A [B C]]. cbn [app raw_str]. now rewrite A, B, C, IH.
  - cbn [app raw_str]. apply short_iff in I.
    replace (beq (chr 92) j_quote) with false by reflexivity.
    replace (beq (chr 92) j_back) with true by reflexivity. now rewrite I, IH.
  - destruct (hex4_shape _ _ H) as [h1 [h2 [h3 [h4 [-> E]]]]]. cbn [app raw_str].
    replace (beq (chr 92) j_quote) with false by reflexivity.
    replace (beq (chr 92) j_back) with true by reflexivity.
    rewrite u_not_short, beq_refl, E. cbn [app] in IH. now rewrite IH.
Qed.

Lemma raw_iff l x rest : raw_str l = Some (x, rest) <-> string_body x /\ l = x ++ chr 34 :: rest.
Proof.
  split; [apply (raw_sound (length l)); lia|]. intros [S ->]. apply raw_complete, S.
Qed.

Lemma push_char n : j_push n = utf8_char n.
Proof. reflexivity. Qed.

Lemma says_body x s : says x s -> string_body x.
Proof.
  induction 1.
  - constructor.
  - constructor; assumption.
  - econstructor; eassumption.
  - econstructor; eassumption.
  - apply (sb_hex h n); [assumption|]. apply (sb_hex h' m); assumption.
Qed.

Lemma unescape_complete x s : says x s -> j_unescape x = Some s.
Proof.
  induction 1 as [|b r s U S IH|c d r s I S IH|h n r s H A B S IH|h n h' m r s H A H' B S IH].
  - reflexivity.
  - apply unescaped_iff in U. destruct U as [_ [U _]]. cbn [j_unescape]. now rewrite U, IH.
  - apply short_iff in I. cbn [j_unescape].
    replace (beq (chr 92) j_back) with true by reflexivity. now rewrite I, IH.
  - destruct (hex4_shape _ _ H) as [h1 [h2 [h3 [h4 [-> E]]]]]. cbn [app j_unescape].
    replace (beq (chr 92) j_back) with true by reflexivity.
    rewrite u_not_short, beq_refl, E. cbn [negb]. unfold high_surrogate, low_surrogate in A, B.
    replace (N.leb 56320 n && N.leb n 57343) with false by lia.
    replace (N.ltb n 55296 || N.ltb 56319 n) with true by lia.
    rewrite IH, push_char. reflexivity.
  - destruct (hex4_shape _ _ H) as [h1 [h2 [h3 [h4 [-> E]]]]].
    destruct (hex4_shape _ _ H') as [g1 [g2 [g3 [g4 [-> E']]]]]. cbn [app j_unescape].
    replace (beq (chr 92) j_back) with true by reflexivity.
    rewrite u_not_short, !beq_refl, E. cbn [negb andb]. unfold high_surrogate, low_surrogate in A, B.
    replace (N.leb 56320 n && N.leb n 57343) with false by lia.
    replace (N.ltb n 55296 || N.ltb 56319 n) with false by lia.
    rewrite E'. replace (N.leb 56320 m && N.leb m 57343) with true by lia.
    rewrite IH, push_char. cbn [option_map].
    now replace (1024 * (n - 55296))%N with ((n - 55296) * 1024)%N by lia.
Qed.

Lemma app4_inj {A} (a b c d a' b' c' d' : A) r r' :
  [a; b; c; d] ++ r = a' :: b' :: c' :: d' :: r' ->
  a = a' /\ b = b' /\ c = c' /\ d = d' /\ r = r'.
Proof. intros E. injection E. auto. Qed.

Lemma body_cut x : string_body x -> forall b r, x = b :: r -> b <> chr 92 -> unescaped b /\ string_body r.
Proof.
  intros H b r E D. inversion H; subst; try discriminate.
  - injection H2 as <- <-. split; assumption.
  - injection H2 as <- <-. now destruct D.
  - injection H2 as <- <-. now destruct D.
Qed.

Lemma body_short c d r : string_body (chr 92 :: c :: r) -> j_short c = Some d -> string_body r.
Proof.
  intros H S. inversion H as [|b r' U B|c' d' r' I B|h n r' X B]; subst.
  - destruct U as [_ [_ U]]. now destruct U.
  - exact B.
  - discriminate S.
Qed.

Lemma body_hex a b c d r : string_body (chr 92 :: "u"%char :: a :: b :: c :: d :: r) -> string_body r.
Proof.
  intros H. inversion H as [|x r' U B|c' d' r' I B|h n r' X B E1].
  - subst. destruct U as [_ [_ U]]. now destruct U.
  - subst. apply short_iff in I. discriminate I.
  - destruct (hex4_shape _ _ X) as [h1 [h2 [h3 [h4 [-> _]]]]]. injection E1 as <- <- <- <- <-. exact B.
Qed.

Lemma omap_inv {A B} (f : A -> B) o y : option_map f o = Some y -> exists x, o = Some x /\ y = f x.
Proof. destruct o as [x|]; cbn [option_map]; [|discriminate]. intros E. injection E as <-. exists x. auto. Qed.

Lemma unescape_sound n : forall x s, length x <= n -> string_body x -> j_unescape x = Some s -> says x s.
Proof.
  induction n as [|n IH]; intros x s L B; (destruct x as [|b r];
    [intros E; injection E as <-; constructor|]); cbn [length] in L; [lia|].
  cbn [j_unescape]. destruct (beq b j_back) eqn:K.
  - apply beq_eq in K. subst b. destruct r as [|c r1]; [discriminate|]. cbn [length] in L.
    destruct (j_short c) as [d|] eqn:S.
    + pose proof (body_short _ _ _ B S) as B1. destruct (j_unescape r1) as [y|] eqn:R; [|discriminate].
      intros E. injection E as <-. eapply says_short; [apply short_iff, S|]. apply IH; [lia|assumption..].
    + destruct (beq c "u"%char) eqn:U; [|discriminate]. apply beq_eq in U. subst c. cbn [negb].
      destruct r1 as [|h1 [|h2 [|h3 [|h4 r2]]]]; try discriminate. cbn [length] in L.
      pose proof (body_hex _ _ _ _ _ B) as B1.
      destruct (j_hex4 h1 h2 h3 h4) as [v|] eqn:H; [|discriminate]. apply hex4_iff in H.
      destruct (N.leb 56320 v && N.leb v 57343) eqn:V1; [discriminate|].
      destruct (N.ltb v 55296 || N.ltb 56319 v) eqn:V2.
      * destruct (j_unescape r2) as [y|] eqn:R; [|discriminate].
        intros E. injection E as <-. rewrite push_char.
        apply (says_hex [h1; h2; h3; h4] v); [exact H|unfold high_surrogate; lia|unfold low_surrogate; lia|].
        apply IH; [lia|assumption..].
      * destruct r2 as [|e [|u [|g1 [|g2 [|g3 [|g4 r3]]]]]]; try discriminate.
        destruct (beq e j_back && beq u "u"%char) eqn:EU; [|discriminate].
        apply andb_prop in EU. destruct EU as [E0 U0]. apply beq_eq in E0, U0. subst e u.
        pose proof (body_hex _ _ _ _ _ B1) as B2. cbn [length] in L.
        destruct (j_hex4 g1 g2 g3 g4) as [m|] eqn:G; [|discriminate]. apply hex4_iff in G.
        destruct (N.leb 56320 m && N.leb m 57343) eqn:M; [|discriminate].
        intros E. apply omap_inv in E. destruct E as [y [R ->]]. rewrite push_char.
        rewrite (N.mul_comm (v - 55296)).
        apply (says_pair [h1; h2; h3; h4] v [g1; g2; g3; g4] m);
          [exact H|unfold high_surrogate; lia|exact G|unfold low_surrogate; lia|].
        apply IH; [lia|assumption..].
  - apply beq_neq in K. destruct (body_cut _ B _ _ eq_refl K) as [U B1].
    destruct (j_unescape r) as [y|] eqn:R; [|discriminate]. intros E. injection E as <-.
    constructor; [exact U|]. apply IH; [lia|assumption..].
Qed.

Lemma p_str_iff l raw s rest : p_str l = Some (raw, s, rest) <->
  any_string raw s /\ l = raw ++ chr 34 :: rest.
Proof.
  unfold p_str, any_string. split.
  - destruct (raw_str l) as [[x r]|] eqn:R; [|discriminate]. apply raw_iff in R. destruct R as [B ->].
    destruct (j_unescape x) as [y|] eqn:U; [|discriminate].
    destruct (utf8_valid y) eqn:V; [|discriminate]. intros E. injection E as <- <- <-.
    split; [split; [apply (unescape_sound (length x)); [lia|assumption..]|apply utf8_exact, V]|reflexivity].
  - intros [[S V] ->]. rewrite raw_complete by (eapply says_body; exact S).
    rewrite (unescape_complete _ _ S). apply utf8_exact in V. now rewrite V.
Qed.

Lemma says_fun x s s' : says x s -> says x s' -> s = s'.
Proof. intros A B. apply unescape_complete in A, B. rewrite A in B. now injection B. Qed.

Lemma unescaped_no_back s : Forall unescaped s -> contains j_back s = false.
Proof.
  intros F. apply contains_not_In. intros I. rewrite Forall_forall in F. apply F in I.
  destruct I as [_ [_ I]]. now apply I.
Qed.

Lemma plain_says s : Forall unescaped s -> says s s.
Proof. induction 1; constructor; assumption. Qed.

Lemma no_back_plain x s : says x s -> contains j_back x = false -> x = s /\ Forall unescaped s.
Proof.
  induction 1 as [|b r s U S IH|c d r s I S IH|h n r s H A B S IH|h n h' m r s H A H' B S IH]; intros C.
  - split; [reflexivity|constructor].
  - cbn [contains existsb] in C. apply orb_false_iff in C. destruct C as [_ C]. destruct (IH C) as [-> F].
    split; [reflexivity|constructor; assumption].
  - discriminate C.
  - discriminate C.
  - discriminate C.
Qed.

Lemma quote_ws : j_ws j_quote = false.
Proof. reflexivity. Qed.

Lemma borrowed_iff l s r : p_borrowed l = Some (s, r) <->
  exists w k, blank w /\ plain_string k s /\ l = w ++ quoted k ++ r.
Proof.
  unfold p_borrowed. split.
  - destruct (token j_quote l) as [x|] eqn:T; [|discriminate].
    apply token_iff in T; [|reflexivity]. destruct T as [w [W ->]].
    destruct (p_str x) as [[[raw y] rest]|] eqn:P; [|discriminate].
    apply p_str_iff in P. destruct P as [[S V] ->].
    destruct (contains j_back raw) eqn:B; [discriminate|]. intros E. injection E as <- <-.
    exists w, raw. split; [exact W|]. split.
    + destruct (no_back_plain _ _ S B) as [-> F]. repeat split; assumption.
    + unfold quoted. cbn [app]. now rewrite <- app_assoc.
  - intros [w [k [W [[-> [F V]] ->]]]].
    replace (w ++ quoted s ++ r) with (w ++ j_quote :: s ++ chr 34 :: r).
    2: { unfold quoted. cbn [app]. now rewrite <- app_assoc. }
    rewrite token_at by (reflexivity || exact W).
    rewrite (proj2 (p_str_iff (s ++ chr 34 :: r) s s r)).
    + now rewrite (unescaped_no_back _ F).
    + split; [split; [apply plain_says, F|exact V]|reflexivity].
Qed.

Lemma opt_iff l v r : p_opt l = Some (v, r) <->
  exists w t, blank w /\ null_or plain_string t v /\ l = w ++ t ++ r.
Proof.
  unfold p_opt. split.
  - destruct (token "n"%char l) as [x|] eqn:T.
    + apply token_iff in T; [|reflexivity]. destruct T as [w [W ->]].
      destruct (strip_prefix (lit "ull") x) as [rest|] eqn:P; [|discriminate].
      apply strip_prefix_iff in P. subst x. intros E. injection E as <- <-.
      exists w, (lit "null"). split; [exact W|]. split; [reflexivity|]. reflexivity.
    + destruct (p_borrowed l) as [[s rest]|] eqn:P; [|discriminate].
      apply borrowed_iff in P. destruct P as [w [k [W [K ->]]]]. intros E. injection E as <- <-.
      exists w, (quoted k). split; [exact W|]. split; [|reflexivity].
      exists k. split; [reflexivity|exact K].
  - intros [w [t [W [N ->]]]]. destruct v as [s|]; cbn [null_or] in N.
    + destruct N as [k [-> K]].
      assert (T : token "n"%char (w ++ quoted k ++ r) = None).
      { unfold quoted. cbn [app]. apply token_other; [reflexivity|discriminate|exact W]. }
      rewrite T.
      assert (B : p_borrowed (w ++ quoted k ++ r) = Some (s, r)).
      { apply borrowed_iff. exists w, k. repeat split; try exact W; apply K. }
      now rewrite B.
    + subst t. change (lit "null") with ("n"%char :: lit "ull"). cbn [app].
      rewrite token_at by (reflexivity || exact W). rewrite strip_prefix_app. reflexivity.
Qed.

(** * Numbers *)
Definition starts (p : byte -> bool) (l : bytes) : bool :=
  match l with b :: _ => p b | [] => false end.
(** What follows does not belong to the number. *)
Definition num_char (b : byte) : bool :=
  digit b || beq b "."%char || beq b "e"%char || beq b "E"%char.
Definition follow (l : bytes) : Prop := starts num_char l = false.

Lemma digit_iff b : digit b = true <-> (48 <= N_of_ascii b <= 57)%N.
Proof. apply in_range_iff. Qed.

Lemma skip_digits_is l : exists d, Forall (fun b => (48 <= N_of_ascii b <= 57)%N) d /\
  l = d ++ skip_digits l.
Proof.
  induction l as [|b l [d [D E]]]; [exists []; split; [constructor|reflexivity]|].
  cbn [skip_digits]. destruct (digit b) eqn:B.
  - exists (b :: d). split; [constructor; [apply digit_iff, B|exact D]|]. cbn [app]. now rewrite <- E.
  - exists []. split; [constructor|reflexivity].
Qed.

Lemma skip_digits_app d r : Forall (fun b => (48 <= N_of_ascii b <= 57)%N) d -> starts digit r = false ->
  skip_digits (d ++ r) = r.
Proof.
  induction 1 as [|b d H D IH]; intros S.
  - destruct r as [|c r]; [reflexivity|]. cbn [starts] in S. cbn [app skip_digits]. now rewrite S.
  - cbn [app skip_digits]. rewrite (proj2 (digit_iff b) H). apply IH, S.
Qed.

Lemma digits1_sound l r : digits1 l = Some r -> exists d, digits d /\ l = d ++ r.
Proof.
  destruct l as [|b l]; [discriminate|]. cbn [digits1]. destruct (digit b) eqn:B; [|discriminate].
  intros E. injection E as <-. destruct (skip_digits_is l) as [d [D E]].
  exists (b :: d). split; [split; [discriminate|constructor; [apply digit_iff, B|exact D]]|].
  cbn [app]. now rewrite <- E.
Qed.

Lemma digits1_complete d r : digits d -> starts digit r = false -> digits1 (d ++ r) = Some r.
Proof.
  intros [N F] S. destruct F as [|b d H D]; [now destruct N|]. cbn [app digits1].
  rewrite (proj2 (digit_iff b) H). now rewrite skip_digits_app.
Qed.

Lemma num_sound l r : skip_num l = Some r -> exists t, number t /\ l = t ++ r.
Proof.
  unfold skip_num. destruct (skip_int l) as [r1|] eqn:I; [|discriminate].
  destruct (skip_frac r1) as [r2|] eqn:F; [|discriminate]. intros X.
  assert (HI : exists i, (i = lit "0" \/ (digits i /\ forall r, i <> "0"%char :: r)) /\ l = i ++ r1).
  { unfold skip_int in I. destruct l as [|b l]; [discriminate|].
    destruct (beq b "0"%char) eqn:B.
    - apply beq_eq in B. subst b. exists (lit "0"). split; [left; reflexivity|].
      destruct l as [|c l]; [injection I as <-; reflexivity|].
      destruct (digit c); [discriminate|]. injection I as <-. reflexivity.
    - apply digits1_sound in I. destruct I as [d [D E]]. exists d. split; [|exact E]. right.
      split; [exact D|]. intros x ->. injection E as -> _. now rewrite beq_refl in B. }
  assert (HF : exists f, (f = [] \/ exists d, f = "."%char :: d /\ digits d) /\ r1 = f ++ r2).
  { unfold skip_frac in F. destruct r1 as [|b x].
    - injection F as <-. exists []. split; [left; reflexivity|reflexivity].
    - destruct (beq b "."%char) eqn:B.
      + apply beq_eq in B. subst b. apply digits1_sound in F. destruct F as [d [D ->]].
        exists ("."%char :: d). split; [right; exists d; split; [reflexivity|exact D]|reflexivity].
      + injection F as <-. exists []. split; [left; reflexivity|reflexivity]. }
  assert (HX : exists x, (x = [] \/ exists c s d, x = c :: s ++ d /\ In c ["e"%char; "E"%char] /\
                             In s [[]; lit "+"; lit "-"] /\ digits d) /\ r2 = x ++ r).
  { unfold skip_exp in X. destruct r2 as [|b x].
    - injection X as <-. exists []. split; [left; reflexivity|reflexivity].
    - destruct (beq b "e"%char || beq b "E"%char) eqn:B.
      + assert (C : In b ["e"%char; "E"%char]).
        { apply orb_prop in B. destruct B as [B|B]; apply beq_eq in B; subst b; cbn; auto. }
        destruct x as [|s x]; [discriminate|].
        destruct (beq s "+"%char || beq s "-"%char) eqn:P.
        * apply digits1_sound in X. destruct X as [d [D ->]].
          exists (b :: [s] ++ d). split; [|reflexivity]. right. exists b, [s], d.
          split; [reflexivity|]. split; [exact C|]. split; [|exact D].
          apply orb_prop in P. destruct P as [P|P]; apply beq_eq in P; subst s; cbn; auto.
        * apply digits1_sound in X. destruct X as [d [D E]].
          exists (b :: [] ++ d). cbn [app]. rewrite E. split; [|reflexivity]. right. exists b, [], d.
          split; [reflexivity|]. split; [exact C|]. split; [cbn; auto|exact D].
      + injection X as <-. exists []. split; [left; reflexivity|reflexivity]. }
  destruct HI as [i [I1 ->]]. destruct HF as [f [F1 ->]]. destruct HX as [x [X1 ->]].
  exists (i ++ f ++ x). split; [|rewrite <- !app_assoc; reflexivity].
  exists i, f, x. repeat split; assumption.
Qed.

Lemma follow_parts r : follow r -> starts digit r = false /\
  (forall x, r <> "."%char :: x) /\ (forall b x, r = b :: x -> beq b "e"%char || beq b "E"%char = false).
Proof.
  unfold follow. destruct r as [|b r]; cbn [starts].
  - intros _. repeat split; try discriminate.
  - unfold num_char. intros H. apply orb_false_iff in H. destruct H as [H E1].
    apply orb_false_iff in H. destruct H as [H E2]. apply orb_false_iff in H. destruct H as [D P].
    split; [exact D|]. split.
    + intros x E. injection E as -> _. now rewrite beq_refl in P.
    + intros c x E. injection E as <- _. now rewrite E1, E2.
Qed.

Lemma num_complete t r : number t -> follow r -> skip_num (t ++ r) = Some r.
Proof.
  intros [i [f [x [-> [I [F X]]]]]] R. destruct (follow_parts _ R) as [R1 [R2 R3]].
  assert (SX : skip_exp (x ++ r) = Some r).
  { destruct X as [->|[c [s [d [-> [C [S D]]]]]]].
    - destruct r as [|b r]; [reflexivity|]. cbn [app skip_exp]. now rewrite (R3 b r eq_refl).
    - cbn [app skip_exp]. replace (beq c "e"%char || beq c "E"%char) with true.
      2: { destruct C as [<-|[<-|[]]]; reflexivity. }
      destruct S as [<-|[<-|[<-|[]]]].
      + destruct D as [N G]. pose proof (digits1_complete d r (conj N G) R1) as Q.
        destruct d as [|a d]; [now destruct N|]. cbn [app] in *.
        replace (beq a "+"%char || beq a "-"%char) with false; [exact Q|].
        inversion G as [|? ? G1 G2]; subst. symmetry. apply orb_false_iff.
        split; apply beq_neq; intros ->; cbn in G1; lia.
      + cbn [app lit list_ascii_of_string]. cbn [beq Ascii.eqb Bool.eqb orb]. apply digits1_complete; assumption.
      + cbn [app lit list_ascii_of_string]. cbn [beq Ascii.eqb Bool.eqb orb]. apply digits1_complete; assumption. }
  assert (HX : starts digit (x ++ r) = false /\ forall y, x ++ r <> "."%char :: y).
  { destruct X as [->|[c [s [d [-> [C _]]]]]]; [split; assumption|].
    cbn [app starts]. split; [destruct C as [<-|[<-|[]]]; reflexivity|].
    intros y E. injection E as -> _. destruct C as [C|[C|[]]]; discriminate. }
  destruct HX as [HX1 HX2].
  assert (SF : skip_frac (f ++ x ++ r) = Some (x ++ r)).
  { destruct F as [->|[d [-> D]]].
    - cbn [app]. destruct (x ++ r) as [|b y] eqn:Y; [reflexivity|]. cbn [skip_frac].
      destruct (beq b "."%char) eqn:B; [|reflexivity]. apply beq_eq in B. subst b. now destruct (HX2 y).
    - cbn [app skip_frac]. rewrite beq_refl. apply digits1_complete; assumption. }
  assert (HF : starts digit (f ++ x ++ r) = false).
  { destruct F as [->|[d [-> D]]]; [exact HX1|reflexivity]. }
  unfold skip_num. rewrite <- !app_assoc.
  assert (SI : skip_int (i ++ f ++ x ++ r) = Some (f ++ x ++ r)).
  { destruct I as [->|[D N]].
    - cbn [lit list_ascii_of_string app skip_int]. rewrite beq_refl.
      destruct (f ++ x ++ r) as [|c y]; [reflexivity|]. cbn [starts] in HF. now rewrite HF.
    - pose proof (digits1_complete i _ D HF) as Q. destruct i as [|b i]; [now destruct D|].
      cbn [app] in *. unfold skip_int. destruct (beq b "0"%char) eqn:B; [|exact Q].
      apply beq_eq in B. subst b. now destruct (N i). }
  rewrite SI, SF. exact SX.
Qed.

(** * Values *)
Lemma quoted_app k r : quoted k ++ r = chr 34 :: k ++ chr 34 :: r.
Proof. unfold quoted. cbn [app]. now rewrite <- app_assoc. Qed.

Ltac flat := repeat (progress (rewrite <- ?app_assoc, ?quoted_app; cbn [app])).

Lemma value_sound f :
  (forall l r, skip_value f l = Some r -> exists w t, blank w /\ json_value t /\ l = w ++ t ++ r) /\
  (forall l r, skip_elements f l = Some r -> exists t es, elements1 t es /\ l = t ++ "]"%char :: r) /\
  (forall l r, skip_members f l = Some r -> exists t ms, members1 t ms /\ l = t ++ "}"%char :: r).
Proof.
  induction f as [|f [IV [IE IM]]]; [split; [|split]; discriminate|]. split; [|split].
  - intros l r. cbn [skip_value]. destruct (skip_ws_is l) as [w [W E]].
    destruct (skip_ws l) as [|b x] eqn:S; [discriminate|]. rewrite E. intros H. exists w.
    enough (X : exists t, json_value t /\ b :: x = t ++ r).
    { destruct X as [t [T X]]. exists t. rewrite X. auto. }
    clear E S W w l.
    destruct (beq b "n"%char) eqn:B.
    { apply beq_eq in B. subst b. apply strip_prefix_iff in H. subst x.
      exists (lit "null"). split; [constructor|reflexivity]. }
    destruct (beq b "t"%char) eqn:B1.
    { apply beq_eq in B1. subst b. apply strip_prefix_iff in H. subst x.
      exists (lit "true"). split; [constructor|reflexivity]. }
    destruct (beq b "f"%char) eqn:B2.
    { apply beq_eq in B2. subst b. apply strip_prefix_iff in H. subst x.
      exists (lit "false"). split; [constructor|reflexivity]. }
    destruct (beq b "-"%char) eqn:B3.
    { apply beq_eq in B3. subst b. apply num_sound in H. destruct H as [t [T ->]].
      exists ("-"%char :: t). split; [constructor; exact T|reflexivity]. }
    destruct (digit b) eqn:B4.
    { apply num_sound in H. destruct H as [t [T E]]. exists t. split; [constructor; exact T|exact E]. }
    destruct (beq b j_quote) eqn:B5.
    { apply beq_eq in B5. subst b. destruct (raw_str x) as [[k rest]|] eqn:R; [|discriminate].
      injection H as <-. apply raw_iff in R. destruct R as [K ->]. exists (quoted k).
      split; [constructor; exact K|]. now rewrite quoted_app. }
    destruct (beq b "["%char) eqn:B6.
    { apply beq_eq in B6. subst b. destruct (token "]"%char x) as [y|] eqn:T.
      - injection H as <-. apply token_iff in T; [|reflexivity]. destruct T as [w [W ->]].
        exists ("["%char :: w ++ lit "]"). split; [econstructor; constructor; exact W|].
        cbn [app]. now rewrite <- app_assoc.
      - apply IE in H. destruct H as [t [es [H ->]]]. exists ("["%char :: t ++ lit "]").
        split; [econstructor; apply el_some; exact H|]. cbn [app]. now rewrite <- app_assoc. }
    destruct (beq b "{"%char) eqn:B7; [|discriminate].
    apply beq_eq in B7. subst b. destruct (token "}"%char x) as [y|] eqn:T.
    + injection H as <-. apply token_iff in T; [|reflexivity]. destruct T as [w [W ->]].
      exists ("{"%char :: w ++ lit "}"). split; [eapply jv_object; constructor; exact W|].
      cbn [app]. now rewrite <- app_assoc.
    + apply IM in H. destruct H as [t [es [H ->]]]. exists ("{"%char :: t ++ lit "}").
      split; [eapply jv_object; apply me_some; exact H|]. cbn [app]. now rewrite <- app_assoc.
  - intros l r. cbn [skip_elements]. destruct (skip_value f l) as [x|] eqn:V; [|discriminate].
    apply IV in V. destruct V as [w [t [W [T ->]]]]. destruct (token ","%char x) as [y|] eqn:C; intros H.
    + apply token_iff in C; [|reflexivity]. destruct C as [w' [W' ->]].
      apply IE in H. destruct H as [u [es [H ->]]].
      exists (w ++ t ++ w' ++ ","%char :: u), (t :: es). split; [apply el_more; assumption|].
      rewrite <- !app_assoc. reflexivity.
    + apply token_iff in H; [|reflexivity]. destruct H as [w' [W' ->]].
      exists (w ++ t ++ w'), [t]. split; [apply el_one; assumption|]. now rewrite <- !app_assoc.
  - intros l r. cbn [skip_members]. destruct (token j_quote l) as [x|] eqn:Q; [|discriminate].
    apply token_iff in Q; [|reflexivity]. destruct Q as [w [W ->]].
    destruct (raw_str x) as [[k x1]|] eqn:R; [|discriminate]. apply raw_iff in R. destruct R as [K ->].
    destruct (token ":"%char x1) as [x2|] eqn:C; [|discriminate].
    apply token_iff in C; [|reflexivity]. destruct C as [w1 [W1 ->]].
    destruct (skip_value f x2) as [x3|] eqn:V; [|discriminate].
    apply IV in V. destruct V as [w2 [t [W2 [T ->]]]].
    destruct (token ","%char x3) as [y|] eqn:C; intros H.
    + apply token_iff in C; [|reflexivity]. destruct C as [w3 [W3 ->]].
      apply IM in H. destruct H as [u [ms [H ->]]].
      exists (w ++ quoted k ++ w1 ++ ":"%char :: w2 ++ t ++ w3 ++ ","%char :: u), ((k, t) :: ms).
      split; [apply me_more; assumption|].
      unfold j_quote. flat. reflexivity.
    + apply token_iff in H; [|reflexivity]. destruct H as [w3 [W3 ->]].
      exists (w ++ quoted k ++ w1 ++ ":"%char :: w2 ++ t ++ w3), [(k, t)].
      split; [apply me_one; assumption|].
      unfold j_quote. flat. reflexivity.
Qed.

Scheme jv_ind := Minimality for json_value Sort Prop
  with el_ind := Minimality for elements Sort Prop
  with el1_ind := Minimality for elements1 Sort Prop
  with me_ind := Minimality for members Sort Prop
  with me1_ind := Minimality for members1 Sort Prop.
Combined Scheme json_ind from jv_ind, el_ind, el1_ind, me_ind, me1_ind.

(** How values begin. *)
Definition value_head (b : byte) : Prop :=
  j_ws b = false /\ b <> "]"%char /\ b <> "}"%char /\ b <> ","%char.
Definition begins (t : bytes) : Prop := exists b x, t = b :: x /\ value_head b.

Lemma digit_head b : (48 <= N_of_ascii b <= 57)%N -> value_head b.
Proof.
  intros D. unfold value_head. split.
  - destruct (j_ws b) eqn:W; [|reflexivity]. apply ws_iff in W.
    repeat (destruct W as [W|W]; [subst b; cbn in D; lia|]). destruct W.
  - repeat split; intros ->; cbn in D; lia.
Qed.

Lemma number_head t : number t -> exists b x, t = b :: x /\ (48 <= N_of_ascii b <= 57)%N.
Proof.
  intros [i [f [x [-> [[->|[[N D] _]] _]]]]].
  - eexists _, _. split; [reflexivity|]. cbn. lia.
  - destruct D as [|b d B D]; [now destruct N|]. eexists _, _. split; [reflexivity|exact B].
Qed.

Lemma follow_blank w c r : blank w -> num_char c = false -> follow (w ++ c :: r).
Proof.
  intros W C. destruct W as [|b w B W]; [exact C|]. cbn [app follow starts].
  unfold follow. cbn [starts]. repeat (destruct B as [<-|B]; [reflexivity|]). destruct B.
Qed.

Lemma skip_start f w b x : blank w -> j_ws b = false ->
  skip_value f (w ++ b :: x) = skip_value f (b :: x).
Proof.
  intros W B. destruct f as [|f]; [reflexivity|]. cbn [skip_value].
  rewrite skip_blank by exact W. reflexivity.
Qed.

Lemma value_complete :
  (forall t, json_value t -> begins t /\
     forall w r f, blank w -> follow r -> 2 * length t + 1 <= f -> skip_value f (w ++ t ++ r) = Some r) /\
  (forall t es, elements t es -> forall r f, 2 * length t + 2 <= f ->
     match token "]"%char (t ++ "]"%char :: r) with
     | Some r' => Some r'
     | None => skip_elements f (t ++ "]"%char :: r)
     end = Some r) /\
  (forall t es, elements1 t es -> (forall r, token "]"%char (t ++ r) = None) /\
     forall r f, 2 * length t + 2 <= f -> skip_elements f (t ++ "]"%char :: r) = Some r) /\
  (forall t ms, members t ms -> forall r f, 2 * length t + 2 <= f ->
     match token "}"%char (t ++ "}"%char :: r) with
     | Some r' => Some r'
     | None => skip_members f (t ++ "}"%char :: r)
     end = Some r) /\
  (forall t ms, members1 t ms -> (forall r, token "}"%char (t ++ r) = None) /\
     forall r f, 2 * length t + 2 <= f -> skip_members f (t ++ "}"%char :: r) = Some r).
Proof.
  apply json_ind.
  - split; [do 2 eexists; split; [reflexivity|repeat split; discriminate]|]. intros w r f W _ F.
    destruct f as [|f]; [lia|]. change (lit "null") with ("n"%char :: lit "ull"). cbn [app].
    rewrite skip_start by (exact W || reflexivity). cbn [skip_value]. rewrite skip_nows by reflexivity.
    rewrite beq_refl. apply strip_prefix_app.
  - split; [do 2 eexists; split; [reflexivity|repeat split; discriminate]|]. intros w r f W _ F.
    destruct f as [|f]; [lia|]. change (lit "true") with ("t"%char :: lit "rue"). cbn [app].
    rewrite skip_start by (exact W || reflexivity). cbn [skip_value]. rewrite skip_nows by reflexivity.
    replace (beq "t"%char "n"%char) with false by reflexivity. rewrite beq_refl. apply strip_prefix_app.
  - split; [do 2 eexists; split; [reflexivity|repeat split; discriminate]|]. intros w r f W _ F.
    destruct f as [|f]; [lia|]. change (lit "false") with ("f"%char :: lit "alse"). cbn [app].
    rewrite skip_start by (exact W || reflexivity). cbn [skip_value]. rewrite skip_nows by reflexivity.
    replace (beq "f"%char "n"%char) with false by reflexivity.
    replace (beq "f"%char "t"%char) with false by reflexivity. rewrite beq_refl. apply strip_prefix_app.
  - intros t N. destruct (number_head _ N) as [b [x [-> D]]]. pose proof (digit_head _ D) as HD. split.
    + exists b, x. auto.
    + intros w r f W R F. destruct f as [|f]; [lia|]. cbn [app].
      rewrite skip_start by (exact W || apply HD). cbn [skip_value]. rewrite skip_nows by apply HD.
      replace (beq b "n"%char) with false by (symmetry; apply beq_neq; intros ->; cbn in D; lia).
      replace (beq b "t"%char) with false by (symmetry; apply beq_neq; intros ->; cbn in D; lia).
      replace (beq b "f"%char) with false by (symmetry; apply beq_neq; intros ->; cbn in D; lia).
      replace (beq b "-"%char) with false by (symmetry; apply beq_neq; intros ->; cbn in D; lia).
      rewrite (proj2 (digit_iff b) D). apply (num_complete (b :: x)); assumption.
  - intros t N. split; [do 2 eexists; split; [reflexivity|repeat split; discriminate]|].
    intros w r f W R F. destruct f as [|f]; [lia|]. cbn [app].
    rewrite skip_start by (exact W || reflexivity). cbn [skip_value]. rewrite skip_nows by reflexivity.
    replace (beq "-"%char "n"%char) with false by reflexivity.
    replace (beq "-"%char "t"%char) with false by reflexivity.
    replace (beq "-"%char "f"%char) with false by reflexivity.
    rewrite beq_refl. apply num_complete; assumption.
  - intros k K. split; [do 2 eexists; split; [reflexivity|repeat split; discriminate]|].
    intros w r f W R F. destruct f as [|f]; [lia|]. rewrite quoted_app.
    rewrite skip_start by (exact W || reflexivity). cbn [skip_value]. rewrite skip_nows by reflexivity.
    replace (beq (chr 34) "n"%char) with false by reflexivity.
    replace (beq (chr 34) "t"%char) with false by reflexivity.
    replace (beq (chr 34) "f"%char) with false by reflexivity.
    replace (beq (chr 34) "-"%char) with false by reflexivity.
    replace (digit (chr 34)) with false by reflexivity.
    replace (beq (chr 34) j_quote) with true by reflexivity.
    rewrite raw_complete by exact K. reflexivity.
  - intros t es _ IH. split; [do 2 eexists; split; [reflexivity|repeat split; discriminate]|].
    intros w r f W R F. destruct f as [|f]; [lia|]. cbn [app]. rewrite <- app_assoc. cbn [app lit list_ascii_of_string].
    rewrite skip_start by (exact W || reflexivity). cbn [skip_value]. rewrite skip_nows by reflexivity.
    replace (beq "["%char "n"%char) with false by reflexivity.
    replace (beq "["%char "t"%char) with false by reflexivity.
    replace (beq "["%char "f"%char) with false by reflexivity.
    replace (beq "["%char "-"%char) with false by reflexivity.
    replace (digit "["%char) with false by reflexivity.
    replace (beq "["%char j_quote) with false by reflexivity.
    replace (beq "["%char "["%char) with true by reflexivity.
    apply IH. cbn [length] in F. rewrite app_length in F. lia.
  - intros t ms _ IH. split; [do 2 eexists; split; [reflexivity|repeat split; discriminate]|].
    intros w r f W R F. destruct f as [|f]; [lia|]. cbn [app]. rewrite <- app_assoc. cbn [app lit list_ascii_of_string].
    rewrite skip_start by (exact W || reflexivity). cbn [skip_value]. rewrite skip_nows by reflexivity.
    replace (beq "{"%char "n"%char) with false by reflexivity.
    replace (beq "{"%char "t"%char) with false by reflexivity.
    replace (beq "{"%char "f"%char) with false by reflexivity.
    replace (beq "{"%char "-"%char) with false by reflexivity.
    replace (digit "{"%char) with false by reflexivity.
    replace (beq "{"%char j_quote) with false by reflexivity.
    replace (beq "{"%char "["%char) with false by reflexivity.
    replace (beq "{"%char "{"%char) with true by reflexivity.
    apply IH. cbn [length] in F. rewrite app_length in F. lia.
  - intros w W r f F. now rewrite token_at by (exact W || reflexivity).
  - intros t es _ [N IH] r f F. rewrite N. apply IH, F.
  - intros w t w' W _ [[b [x [E HB]]] IH] W'. split.
    + intros r. rewrite E, <- !app_assoc. cbn [app]. apply token_other; [apply HB|apply HB|exact W].
    + intros r f F. destruct f as [|f]; [lia|]. rewrite !app_length in F. rewrite <- !app_assoc.
      cbn [skip_elements]. rewrite IH by (lia || exact W || (apply follow_blank; [exact W'|reflexivity])).
      rewrite token_other by (exact W' || reflexivity || discriminate).
      apply token_at; [reflexivity|exact W'].
  - intros w t w' u es W _ [[b [x [E HB]]] IH] W' _ [_ IU]. split.
    + intros r. rewrite E, <- !app_assoc. cbn [app]. apply token_other; [apply HB|apply HB|exact W].
    + intros r f F. destruct f as [|f]; [lia|]. rewrite !app_length in F. cbn [length] in F.
      rewrite <- !app_assoc. cbn [app].
      cbn [skip_elements]. rewrite IH by (lia || exact W || (apply follow_blank; [exact W'|reflexivity])).
      rewrite token_at by (exact W' || reflexivity). apply IU. lia.
  - intros w W r f F. now rewrite token_at by (exact W || reflexivity).
  - intros t es _ [N IH] r f F. rewrite N. apply IH, F.
  - intros w k w1 w2 t w3 W K W1 W2 _ [_ IH] W3. split.
    + intros r. rewrite <- app_assoc, <- app_assoc, quoted_app. apply token_other; [reflexivity|discriminate|exact W].
    + intros r f F. destruct f as [|f]; [lia|]. rewrite !app_length in F. cbn [length] in F.
      rewrite !app_length in F. rewrite <- app_assoc, <- app_assoc, quoted_app. cbn [skip_members].
      change (chr 34 :: k ++ chr 34 :: (w1 ++ ":"%char :: w2 ++ t ++ w3) ++ "}"%char :: r)
        with (j_quote :: k ++ chr 34 :: (w1 ++ ":"%char :: w2 ++ t ++ w3) ++ "}"%char :: r).
      rewrite token_at by (exact W || reflexivity). rewrite raw_complete by exact K.
      rewrite <- app_assoc. cbn [app]. rewrite token_at by (exact W1 || reflexivity).
      rewrite <- !app_assoc. rewrite IH by (lia || exact W2 || (apply follow_blank; [exact W3|reflexivity])).
      rewrite token_other by (exact W3 || reflexivity || discriminate).
      apply token_at; [reflexivity|exact W3].
  - intros w k w1 w2 t w3 u ms W K W1 W2 _ [_ IH] W3 _ [_ IU]. split.
    + intros r. rewrite <- app_assoc, <- app_assoc, quoted_app. apply token_other; [reflexivity|discriminate|exact W].
    + intros r f F. destruct f as [|f]; [lia|]. rewrite !app_length in F. cbn [length] in F.
      rewrite !app_length in F. cbn [length] in F. rewrite <- app_assoc, <- app_assoc, quoted_app. cbn [skip_members].
      change (chr 34 :: k ++ chr 34 :: (w1 ++ ":"%char :: w2 ++ t ++ w3 ++ ","%char :: u) ++ "}"%char :: r)
        with (j_quote :: k ++ chr 34 :: (w1 ++ ":"%char :: w2 ++ t ++ w3 ++ ","%char :: u) ++ "}"%char :: r).
      rewrite token_at by (exact W || reflexivity). rewrite raw_complete by exact K.
      rewrite <- app_assoc. cbn [app]. rewrite token_at by (exact W1 || reflexivity).
      rewrite <- !app_assoc. cbn [app].
      rewrite IH by (lia || exact W2 || (apply follow_blank; [exact W3|reflexivity])).
      rewrite token_at by (exact W3 || reflexivity). apply IU. lia.
Qed.

(** * Members of the error object *)
Definition n_status : bytes := lit "status".
Definition n_scope : bytes := lit "scope".
Definition n_openid : bytes := lit "openid-configuration".
Definition text_value (t v : bytes) : Prop := exists k, t = quoted k /\ plain_string k v.

(** One member changes the variables. *)
Definition takes (s : bytes) (fs : fields) (t : bytes) (fs' : fields) : Prop :=
  (s = n_status /\ f_status fs = None /\
     exists v, text_value t v /\ fs' = mk_fields (Some v) (f_scope fs) (f_openid fs)) \/
  (s = n_scope /\ f_scope fs = None /\
     exists v, null_or plain_string t v /\ fs' = mk_fields (f_status fs) (Some v) (f_openid fs)) \/
  (s = n_openid /\ f_openid fs = None /\
     exists v, null_or plain_string t v /\ fs' = mk_fields (f_status fs) (f_scope fs) (Some v)) \/
  (s <> n_status /\ s <> n_scope /\ s <> n_openid /\ fs' = fs).

Lemma text_value_json t v : text_value t v -> json_value t.
Proof.
  intros [k [-> [-> [F _]]]]. apply jv_string. eapply says_body, plain_says, F.
Qed.

Lemma null_or_json t v : null_or plain_string t v -> json_value t.
Proof.
  destruct v as [s|]; cbn [null_or].
  - intros H. eapply text_value_json. exact H.
  - intros ->. constructor.
Qed.

Lemma field_sound s fs l fs' r : p_field s fs l = Some (fs', r) ->
  exists w t, blank w /\ json_value t /\ l = w ++ t ++ r /\ takes s fs t fs'.
Proof.
  unfold p_field. fold n_status n_scope n_openid.
  destruct (bytes_eqb_spec s n_status) as [S1|S1].
  { destruct (f_status fs) eqn:F; [discriminate|].
    destruct (p_borrowed l) as [[v x]|] eqn:B; [|discriminate]. cbn [option_map fst snd]. intros E. injection E as <- <-.
    apply borrowed_iff in B. destruct B as [w [k [W [K ->]]]].
    assert (T : text_value (quoted k) v) by (exists k; auto).
    exists w, (quoted k). split; [exact W|]. split; [eapply text_value_json, T|]. split; [reflexivity|].
    left. split; [exact S1|]. split; [exact F|]. exists v. split; [exact T|reflexivity]. }
  destruct (bytes_eqb_spec s n_scope) as [S2|S2].
  { destruct (f_scope fs) eqn:F; [discriminate|].
    destruct (p_opt l) as [[v x]|] eqn:B; [|discriminate]. intros E. injection E as <- <-.
    apply opt_iff in B. destruct B as [w [t [W [K ->]]]].
    exists w, t. split; [exact W|]. split; [eapply null_or_json, K|]. split; [reflexivity|].
    right. left. split; [exact S2|]. split; [exact F|]. exists v. split; [exact K|reflexivity]. }
  destruct (bytes_eqb_spec s n_openid) as [S3|S3].
  { destruct (f_openid fs) eqn:F; [discriminate|].
    destruct (p_opt l) as [[v x]|] eqn:B; [|discriminate]. intros E. injection E as <- <-.
    apply opt_iff in B. destruct B as [w [t [W [K ->]]]].
    exists w, t. split; [exact W|]. split; [eapply null_or_json, K|]. split; [reflexivity|].
    right. right. left. split; [exact S3|]. split; [exact F|]. exists v. split; [exact K|reflexivity]. }
  destruct (skip_any l) as [x|] eqn:V; [|discriminate]. intros E. injection E as <- <-.
  apply (proj1 (value_sound _)) in V. destruct V as [w [t [W [T ->]]]].
  exists w, t. split; [exact W|]. split; [exact T|]. split; [reflexivity|]. do 3 right. auto.
Qed.

Lemma field_complete s fs w t fs' r : takes s fs t fs' -> json_value t -> blank w -> follow r ->
  p_field s fs (w ++ t ++ r) = Some (fs', r).
Proof.
  intros T J W R. unfold p_field. fold n_status n_scope n_openid.
  destruct T as [[-> [F [v [[k [-> K]] ->]]]]|[[-> [F [v [K ->]]]]|[[-> [F [v [K ->]]]]|[A [B [C ->]]]]]].
  - rewrite bytes_eqb_refl, F. rewrite (proj2 (borrowed_iff _ v r)); [reflexivity|]. exists w, k. auto.
  - replace (bytes_eqb n_scope n_status) with false by reflexivity. rewrite bytes_eqb_refl, F.
    rewrite (proj2 (opt_iff _ v r)); [reflexivity|]. exists w, t. auto.
  - replace (bytes_eqb n_openid n_status) with false by reflexivity.
    replace (bytes_eqb n_openid n_scope) with false by reflexivity. rewrite bytes_eqb_refl, F.
    rewrite (proj2 (opt_iff _ v r)); [reflexivity|]. exists w, t. auto.
  - apply bytes_eqb_neq in A, B, C. rewrite A, B, C. unfold skip_any.
    rewrite (proj2 ((proj1 value_complete) t J) w r _ W R); [reflexivity|].
    rewrite !app_length. lia.
Qed.

Inductive runs : fields -> list (bytes * bytes) -> fields -> Prop :=
| runs_nil fs : runs fs [] fs
| runs_cons fs k t s fs1 ms fs' : any_string k s -> takes s fs t fs1 -> runs fs1 ms fs' ->
    runs fs ((k, t) :: ms) fs'.

Lemma fields_sound f : forall fs l fs' r, p_fields f fs l = Some (fs', r) ->
  exists t ms, members1 t ms /\ l = t ++ "}"%char :: r /\ runs fs ms fs'.
Proof.
  induction f as [|f IH]; intros fs l fs' r; [discriminate|]. cbn [p_fields].
  destruct (token j_quote l) as [x|] eqn:Q; [|discriminate].
  apply token_iff in Q; [|reflexivity]. destruct Q as [w [W ->]].
  destruct (p_str x) as [[[k s] x1]|] eqn:R; [|discriminate]. apply p_str_iff in R. destruct R as [K ->].
  assert (KB : string_body k) by (eapply says_body, (proj1 K)).
  destruct (token ":"%char x1) as [x2|] eqn:C; [|discriminate].
  apply token_iff in C; [|reflexivity]. destruct C as [w1 [W1 ->]].
  destruct (p_field s fs x2) as [[fs1 x3]|] eqn:V; [|discriminate].
  apply field_sound in V. destruct V as [w2 [t [W2 [T [-> TK]]]]].
  destruct (token ","%char x3) as [y|] eqn:C; intros H.
  - apply token_iff in C; [|reflexivity]. destruct C as [w3 [W3 ->]].
    apply IH in H. destruct H as [u [ms [M [-> H]]]].
    exists (w ++ quoted k ++ w1 ++ ":"%char :: w2 ++ t ++ w3 ++ ","%char :: u), ((k, t) :: ms).
    split; [apply me_more; assumption|]. split; [unfold j_quote; flat; reflexivity|].
    econstructor; eassumption.
  - destruct (token "}"%char x3) as [y|] eqn:D; [|discriminate]. injection H as <- <-.
    apply token_iff in D; [|reflexivity]. destruct D as [w3 [W3 ->]].
    exists (w ++ quoted k ++ w1 ++ ":"%char :: w2 ++ t ++ w3), [(k, t)].
    split; [apply me_one; assumption|]. split; [unfold j_quote; flat; reflexivity|].
    econstructor; [eassumption..|constructor].
Qed.

Lemma fields_complete t ms : members1 t ms -> forall fs fs' f r, runs fs ms fs' -> length t < f ->
  p_fields f fs (t ++ "}"%char :: r) = Some (fs', r).
Proof.
  intros M. induction M as [w k w1 w2 t w3 W K W1 W2 J W3|w k w1 w2 t w3 u ms W K W1 W2 J W3 M IH];
    intros fs fs' f r R F; (destruct f as [|f]; [lia|]).
  - inversion R as [|? ? ? s fs1 ? ? KS T R1]; subst. inversion R1; subst. clear R R1.
    replace ((w ++ quoted k ++ w1 ++ ":"%char :: w2 ++ t ++ w3) ++ "}"%char :: r)
      with (w ++ j_quote :: k ++ chr 34 :: w1 ++ ":"%char :: w2 ++ t ++ w3 ++ "}"%char :: r)
      by (unfold j_quote; flat; reflexivity).
    cbn [p_fields]. rewrite token_at by (exact W || reflexivity).
    rewrite (proj2 (p_str_iff _ k s _) (conj KS eq_refl)).
    rewrite token_at by (exact W1 || reflexivity).
    rewrite (field_complete _ _ _ _ _ _ T J W2) by (apply follow_blank; [exact W3|reflexivity]).
    rewrite token_other by (exact W3 || reflexivity || discriminate).
    rewrite token_at by (exact W3 || reflexivity). reflexivity.
  - inversion R as [|? ? ? s fs1 ? ? KS T R1]; subst.
    replace ((w ++ quoted k ++ w1 ++ ":"%char :: w2 ++ t ++ w3 ++ ","%char :: u) ++ "}"%char :: r)
      with (w ++ j_quote :: k ++ chr 34 :: w1 ++ ":"%char :: w2 ++ t ++ w3 ++ ","%char :: u ++ "}"%char :: r)
      by (unfold j_quote; flat; reflexivity).
    cbn [p_fields]. rewrite token_at by (exact W || reflexivity).
    rewrite (proj2 (p_str_iff _ k s _) (conj KS eq_refl)).
    rewrite token_at by (exact W1 || reflexivity).
    rewrite (field_complete _ _ _ _ _ _ T J W2) by (apply follow_blank; [exact W3|reflexivity]).
    rewrite token_at by (exact W3 || reflexivity). apply IH; [exact R1|].
    repeat (rewrite app_length in F; cbn [length] in F). lia.
Qed.

(** What the members leave in one variable. *)
Definition slot {A} (R : bytes -> A -> Prop) (name : bytes) (old new : option A)
    (ms : list (bytes * bytes)) : Prop :=
  (new = old /\ none_named name ms) \/
  (old = None /\ exists t v, only_named name ms t /\ R t v /\ new = Some v).

Lemma none_cons name k t ms : none_named name ((k, t) :: ms) <-> ~ says k name /\ none_named name ms.
Proof.
  split.
  - intros H. split; [apply (H k t); left; reflexivity|]. intros k' t' I. apply (H k' t'). right. exact I.
  - intros [A B] k' t' [E|I]; [injection E as <- <-; exact A|apply (B _ _ I)].
Qed.

Lemma only_cons name k t ms u : only_named name ((k, t) :: ms) u <->
  (says k name /\ u = t /\ none_named name ms) \/ (~ says k name /\ only_named name ms u).
Proof.
  split.
  - intros [a [k' [b [E [S [A B]]]]]]. destruct a as [|[k0 t0] a]; cbn [app] in E.
    + injection E as -> -> ->. left. auto.
    + injection E as -> -> ->. apply none_cons in A. destruct A as [A1 A2]. right. split; [exact A1|].
      exists a, k', b. auto.
  - intros [[S [-> B]]|[S [a [k' [b [-> [S' [A B]]]]]]]].
    + exists [], k, ms. repeat split; try assumption. intros ? ? [].
    + exists ((k, t) :: a), k', b. repeat split; try assumption. apply none_cons. auto.
Qed.

Lemma slot_hit {A} (R : bytes -> A -> Prop) name old new k t ms : says k name ->
  slot R name old new ((k, t) :: ms) <->
  old = None /\ exists v, R t v /\ slot R name (Some v) new ms.
Proof.
  intros S. split.
  - intros [[-> N]|[-> [u [v [O [H ->]]]]]].
    + apply none_cons in N. now destruct N.
    + split; [reflexivity|]. apply only_cons in O. destruct O as [[_ [-> N]]|[O _]]; [|contradiction].
      exists v. split; [exact H|]. left. split; [reflexivity|exact N].
  - intros [-> [v [H [[-> N]|[E _]]]]]; [|discriminate]. right. split; [reflexivity|].
    exists t, v. split; [|auto]. apply only_cons. left. auto.
Qed.

Lemma slot_miss {A} (R : bytes -> A -> Prop) name old new k t ms : ~ says k name ->
  slot R name old new ((k, t) :: ms) <-> slot R name old new ms.
Proof.
  intros S. unfold slot. rewrite none_cons. split.
  - intros [[E [_ N]]|[E [u [v [O H]]]]]; [left; auto|]. right. split; [exact E|]. exists u, v.
    split; [|exact H]. apply only_cons in O. destruct O as [[O _]|[_ O]]; [contradiction|exact O].
  - intros [[E N]|[E [u [v [O H]]]]]; [left; auto|]. right. split; [exact E|]. exists u, v.
    split; [|exact H]. apply only_cons. right. auto.
Qed.

Lemma other_name k s name : says k s -> s <> name -> ~ says k name.
Proof. intros A D B. apply D. eapply says_fun; eassumption. Qed.

Lemma runs_iff ms : forall fs fs', runs fs ms fs' <->
  Forall (fun m => exists s, any_string (fst m) s) ms /\
  slot text_value n_status (f_status fs) (f_status fs') ms /\
  slot (null_or plain_string) n_scope (f_scope fs) (f_scope fs') ms /\
  slot (null_or plain_string) n_openid (f_openid fs) (f_openid fs') ms.
Proof.
  induction ms as [|[k t] ms IH]; intros fs fs'.
  - split.
    + intros R. inversion R; subst. split; [constructor|].
      repeat split; left; (split; [reflexivity|intros ? ? []]).
    + intros [_ [A [B C]]].
      assert (E : forall X (R : bytes -> X -> Prop) name old new, slot R name old new [] -> new = old).
      { intros X R name old new [[E _]|[_ [u [v [[a [k [b [E _]]]] _]]]]]; [exact E|].
        destruct a; discriminate. }
      apply E in A, B, C. destruct fs, fs'; cbn in *. subst. constructor.
  - split.
    + intros R. inversion R as [|? ? ? s fs1 ? ? KS T R1]; subst. apply IH in R1.
      destruct R1 as [F [A [B C]]]. split; [constructor; [exists s; exact KS|exact F]|].
      destruct KS as [KS _].
      destruct T as [[-> [N [v [V ->]]]]|[[-> [N [v [V ->]]]]|[[-> [N [v [V ->]]]]|[D1 [D2 [D3 ->]]]]]];
        cbn [f_status f_scope f_openid] in *.
      * split; [apply slot_hit; [exact KS|]; split; [exact N|]; exists v; auto|].
        split; (apply slot_miss; [eapply other_name; [exact KS|discriminate]|assumption]).
      * split; [apply slot_miss; [eapply other_name; [exact KS|discriminate]|assumption]|].
        split; [apply slot_hit; [exact KS|]; split; [exact N|]; exists v; auto|].
        apply slot_miss; [eapply other_name; [exact KS|discriminate]|assumption].
      * split; [apply slot_miss; [eapply other_name; [exact KS|discriminate]|assumption]|].
        split; [apply slot_miss; [eapply other_name; [exact KS|discriminate]|assumption]|].
        apply slot_hit; [exact KS|]; split; [exact N|]; exists v; auto.
      * repeat split; (apply slot_miss; [eapply other_name; [exact KS|assumption]|assumption]).
    + intros [F [A [B C]]]. inversion F as [|? ? [s KS] F']; subst. cbn [fst] in KS.
      pose proof (proj1 KS) as KS0.
      assert (DEC : s = n_status \/ s = n_scope \/ s = n_openid \/
                    (s <> n_status /\ s <> n_scope /\ s <> n_openid)).
      { destruct (bytes_eqb_spec s n_status); [auto|]. destruct (bytes_eqb_spec s n_scope); [auto|].
        destruct (bytes_eqb_spec s n_openid); auto. do 3 right. auto. }
      destruct DEC as [->|[->|[->|[D1 [D2 D3]]]]].
      * apply slot_hit in A; [|exact KS0]. destruct A as [N [v [V A]]].
        apply slot_miss in B; [|eapply other_name; [exact KS0|discriminate]].
        apply slot_miss in C; [|eapply other_name; [exact KS0|discriminate]].
        econstructor; [exact KS|left; split; [reflexivity|]; split; [exact N|]; exists v; split; [exact V|reflexivity]|].
        apply IH. cbn [f_status f_scope f_openid]. auto.
      * apply slot_hit in B; [|exact KS0]. destruct B as [N [v [V B]]].
        apply slot_miss in A; [|eapply other_name; [exact KS0|discriminate]].
        apply slot_miss in C; [|eapply other_name; [exact KS0|discriminate]].
        econstructor; [exact KS|right; left; split; [reflexivity|]; split; [exact N|]; exists v; split; [exact V|reflexivity]|].
        apply IH. cbn [f_status f_scope f_openid]. auto.
      * apply slot_hit in C; [|exact KS0]. destruct C as [N [v [V C]]].
        apply slot_miss in A; [|eapply other_name; [exact KS0|discriminate]].
        apply slot_miss in B; [|eapply other_name; [exact KS0|discriminate]].
        econstructor; [exact KS|do 2 right; left; split; [reflexivity|]; split; [exact N|]; exists v; split; [exact V|reflexivity]|].
        apply IH. cbn [f_status f_scope f_openid]. auto.
      * apply slot_miss in A; [|eapply other_name; [exact KS0|assumption]].
        apply slot_miss in B; [|eapply other_name; [exact KS0|assumption]].
        apply slot_miss in C; [|eapply other_name; [exact KS0|assumption]].
        econstructor; [exact KS|do 3 right; auto|]. apply IH. auto.
Qed.

(** * The error object *)
Lemma opt_slot name ms x : slot (null_or plain_string) name None x ms -> optional plain_string name ms (j_flat x).
Proof.
  intros [[-> N]|[_ [t [v [O [V ->]]]]]]; [left; auto|]. right. exists t. auto.
Qed.

Lemma slot_opt name ms v : optional plain_string name ms v ->
  exists x, j_flat x = v /\ slot (null_or plain_string) name None x ms.
Proof.
  intros [[-> N]|[t [O V]]].
  - exists None. split; [reflexivity|]. left. auto.
  - exists (Some v). split; [reflexivity|]. right. split; [reflexivity|]. exists t, v. auto.
Qed.

Lemma object_iff l o r : p_object l = Some (o, r) <->
  exists t ms, members t ms /\ l = t ++ "}"%char :: r /\
    Forall (fun m => exists s, any_string (fst m) s) ms /\
    (exists k, only_named n_status ms (quoted k) /\ plain_string k (ob_status o)) /\
    optional plain_string n_scope ms (ob_scope o) /\ optional plain_string n_openid ms (ob_openid o).
Proof.
  unfold p_object. split.
  - destruct (token "}"%char l) as [x|] eqn:T; [discriminate|].
    destruct (p_fields (S (length l)) (mk_fields None None None) l) as [[[[st|] sc oi] rest]|] eqn:P;
      try discriminate.
    intros E. injection E as <- <-. apply fields_sound in P. destruct P as [t [ms [M [-> R]]]].
    exists t, ms. split; [apply me_some, M|]. split; [reflexivity|]. apply runs_iff in R.
    destruct R as [F [A [B C]]]. cbn [f_status f_scope f_openid ob_status ob_scope ob_openid] in *.
    split; [exact F|]. split.
    + destruct A as [[E _]|[_ [u [v [O [[k [-> K]] E]]]]]]; [discriminate|]. injection E as <-.
      exists k. auto.
    + split; apply opt_slot; assumption.
  - intros [t [ms [M [-> [F [[k [O K]] [B C]]]]]]].
    inversion M as [w W|t' ms' M1]; subst.
    { destruct O as [a [k' [b [E _]]]]. destruct a; discriminate. }
    rewrite (proj1 ((proj2 (proj2 (proj2 (proj2 value_complete)))) t ms M1)).
    destruct (slot_opt _ _ _ B) as [sc [EB SB]]. destruct (slot_opt _ _ _ C) as [oi [EC SC]].
    rewrite (fields_complete t ms M1 _ (mk_fields (Some (ob_status o)) sc oi)).
    + rewrite EB, EC. destruct o; reflexivity.
    + apply runs_iff. cbn [f_status f_scope f_openid]. split; [exact F|]. split; [|auto].
      right. split; [reflexivity|]. exists (quoted k), (ob_status o). split; [exact O|]. split; [|reflexivity].
      exists k. auto.
    + rewrite app_length. cbn [length]. lia.
Qed.

(** * The error array *)
Lemma array_sound l o r : p_array l = Some (o, r) ->
  exists t k es, elements t (quoted k :: es) /\ l = t ++ "]"%char :: r /\ plain_string k (ob_status o) /\
    match es with
    | [] => ob_scope o = None /\ ob_openid o = None
    | [a] => null_or plain_string a (ob_scope o) /\ ob_openid o = None
    | [a; b] => null_or plain_string a (ob_scope o) /\ null_or plain_string b (ob_openid o)
    | _ => False
    end.
Proof.
  unfold p_array. destruct (p_borrowed l) as [[st r1]|] eqn:B; [|discriminate].
  apply borrowed_iff in B. destruct B as [w [k [W [K ->]]]].
  assert (J : json_value (quoted k)) by (apply (text_value_json _ st); exists k; auto).
  destruct (token ","%char r1) as [r2|] eqn:T1.
  - apply token_iff in T1; [|reflexivity]. destruct T1 as [w1 [W1 ->]].
    destruct (p_opt r2) as [[sc r3]|] eqn:O1; [|discriminate].
    apply opt_iff in O1. destruct O1 as [w2 [a [W2 [A ->]]]].
    pose proof (null_or_json _ _ A) as JA.
    destruct (token ","%char r3) as [r4|] eqn:T2.
    + apply token_iff in T2; [|reflexivity]. destruct T2 as [w3 [W3 ->]].
      destruct (p_opt r4) as [[oi r5]|] eqn:O2; [|discriminate].
      apply opt_iff in O2. destruct O2 as [w4 [b [W4 [B ->]]]].
      pose proof (null_or_json _ _ B) as JB.
      destruct (token "]"%char r5) as [r6|] eqn:T3; [|discriminate].
      apply token_iff in T3; [|reflexivity]. destruct T3 as [w5 [W5 ->]].
      intros E. injection E as <- <-. cbn [ob_status ob_scope ob_openid].
      exists (w ++ quoted k ++ w1 ++ ","%char :: w2 ++ a ++ w3 ++ ","%char :: w4 ++ b ++ w5), k, [a; b].
      split; [apply el_some, el_more; [assumption..|]; apply el_more; [assumption..|]; apply el_one; assumption|].
      split; [flat; reflexivity|]. split; [exact K|]. split; assumption.
    + destruct (token "]"%char r3) as [r6|] eqn:T3; [|discriminate].
      apply token_iff in T3; [|reflexivity]. destruct T3 as [w5 [W5 ->]].
      intros E. injection E as <- <-. cbn [ob_status ob_scope ob_openid].
      exists (w ++ quoted k ++ w1 ++ ","%char :: w2 ++ a ++ w5), k, [a].
      split; [apply el_some, el_more; [assumption..|]; apply el_one; assumption|].
      split; [flat; reflexivity|]. split; [exact K|]. split; [assumption|reflexivity].
  - destruct (token "]"%char r1) as [r6|] eqn:T3; [|discriminate].
    apply token_iff in T3; [|reflexivity]. destruct T3 as [w5 [W5 ->]].
    intros E. injection E as <- <-. cbn [ob_status ob_scope ob_openid].
    exists (w ++ quoted k ++ w5), k, []. split; [apply el_some, el_one; assumption|].
    split; [flat; reflexivity|]. split; [exact K|]. split; reflexivity.
Qed.

Lemma array_complete t k es o r : elements t (quoted k :: es) -> plain_string k (ob_status o) ->
  match es with
  | [] => ob_scope o = None /\ ob_openid o = None
  | [a] => null_or plain_string a (ob_scope o) /\ ob_openid o = None
  | [a; b] => null_or plain_string a (ob_scope o) /\ null_or plain_string b (ob_openid o)
  | _ => False
  end -> p_array (t ++ "]"%char :: r) = Some (o, r).
Proof.
  intros E K H. inversion E as [|? ? E1]; subst. unfold p_array.
  inversion E1 as [w x w' W J W'|w x w' u es' W J W' E2]; subst.
  - destruct H as [A B].
    replace ((w ++ quoted k ++ w') ++ "]"%char :: r) with (w ++ quoted k ++ w' ++ "]"%char :: r)
      by (flat; reflexivity).
    rewrite (proj2 (borrowed_iff _ (ob_status o) (w' ++ "]"%char :: r))) by (exists w, k; auto).
    rewrite token_other by (exact W' || reflexivity || discriminate).
    rewrite token_at by (exact W' || reflexivity). cbn [option_map].
    destruct o; cbn in *; subst; reflexivity.
  - replace ((w ++ quoted k ++ w' ++ ","%char :: u) ++ "]"%char :: r)
      with (w ++ quoted k ++ w' ++ ","%char :: u ++ "]"%char :: r) by (flat; reflexivity).
    rewrite (proj2 (borrowed_iff _ (ob_status o) (w' ++ ","%char :: u ++ "]"%char :: r)))
      by (exists w, k; auto).
    rewrite token_at by (exact W' || reflexivity).
    inversion E2 as [w1 a w1' W1 JA W1'|w1 a w1' u1 es1 W1 JA W1' E3]; subst.
    + destruct H as [A B].
      replace ((w1 ++ a ++ w1') ++ "]"%char :: r) with (w1 ++ a ++ w1' ++ "]"%char :: r)
        by (flat; reflexivity).
      rewrite (proj2 (opt_iff _ (ob_scope o) (w1' ++ "]"%char :: r))) by (exists w1, a; auto).
      rewrite token_other by (exact W1' || reflexivity || discriminate).
      rewrite token_at by (exact W1' || reflexivity). cbn [option_map].
      destruct o; cbn in *; subst; reflexivity.
    + replace ((w1 ++ a ++ w1' ++ ","%char :: u1) ++ "]"%char :: r)
        with (w1 ++ a ++ w1' ++ ","%char :: u1 ++ "]"%char :: r) by (flat; reflexivity).
      inversion E3 as [w2 b w2' W2 JB W2'|w2 b w2' u2 es2 W2 JB W2' E4]; subst.
      * destruct H as [A B].
        rewrite (proj2 (opt_iff _ (ob_scope o) (w1' ++ ","%char :: (w2 ++ b ++ w2') ++ "]"%char :: r)))
          by (exists w1, a; auto).
        rewrite token_at by (exact W1' || reflexivity).
        replace ((w2 ++ b ++ w2') ++ "]"%char :: r) with (w2 ++ b ++ w2' ++ "]"%char :: r)
          by (flat; reflexivity).
        rewrite (proj2 (opt_iff _ (ob_openid o) (w2' ++ "]"%char :: r))) by (exists w2, b; auto).
        rewrite token_at by (exact W2' || reflexivity). cbn [option_map].
        destruct o; reflexivity.
      * inversion E4; subst; destruct H.
Qed.

(** * The reader *)
Lemma read_iff x o : json_from x = Some o <->
  error_object plain_string x o \/ error_array plain_string x o.
Proof.
  unfold json_from. split.
  - destruct (token "{"%char x) as [l|] eqn:T.
    + destruct (p_object l) as [[o' r]|] eqn:P; [|discriminate].
      destruct (skip_ws r) as [|? ?] eqn:S; [|discriminate]. intros E. injection E as <-.
      apply skip_ws_nil in S. apply token_iff in T; [|reflexivity]. destruct T as [w [W ->]].
      apply object_iff in P. destruct P as [t [ms [M [-> [F [A [B C]]]]]]].
      left. exists ms. split; [|auto]. exists w, t, r. auto.
    + destruct (token "["%char x) as [l|] eqn:T2; [|discriminate].
      destruct (p_array l) as [[o' r]|] eqn:P; [|discriminate].
      destruct (skip_ws r) as [|? ?] eqn:S; [|discriminate]. intros E. injection E as <-.
      apply skip_ws_nil in S. apply token_iff in T2; [|reflexivity]. destruct T2 as [w [W ->]].
      apply array_sound in P. destruct P as [t [k [es [M [-> [A B]]]]]].
      right. exists k, es. split; [|auto]. exists w, t, r. auto.
  - intros [[ms [[w [t [r [W [R [M ->]]]]]] H]]|[k [es [[w [t [r [W [R [M ->]]]]]] [A B]]]]].
    + rewrite token_at by (exact W || reflexivity).
      rewrite (proj2 (object_iff (t ++ "}"%char :: r) o r)) by (exists t, ms; auto).
      apply skip_ws_nil in R. rewrite R. reflexivity.
    + rewrite token_other by (exact W || reflexivity || discriminate).
      rewrite token_at by (exact W || reflexivity).
      rewrite (array_complete t k es o r M A B). apply skip_ws_nil in R. rewrite R. reflexivity.
Qed.
