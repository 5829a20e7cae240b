(** Lemmas about whitespace in the lines of the interop crate and about the way bytes are shown
    that are no text. *)
From Coq Require Import List NArith Bool Lia ZArith ZifyN ZifyBool ZifyNat.
From Verif Require Import Spec_Basic Bytes BytesFacts Utf8 Num Mechname Types World CallbackSpec Session Registry
  Apps Interop Spec_Wire Spec_Show Spec_Simple Spec_Session Spec_Registry Spec_Errors Spec_Net Spec_Interop
  Proof_Wire Proof_Utf8 Proof_Session Proof_Interop.
Import ListNotations.

(** * Whitespace characters *)

Definition blankb (n : N) : bool :=
  ((9 <=? n) && (n <=? 13) || (n =? 32) || (n =? 133) || (n =? 160) || (n =? 5760)
   || (8192 <=? n) && (n <=? 8202) || (n =? 8232) || (n =? 8233) || (n =? 8239) || (n =? 8287)
   || (n =? 12288))%N.
Lemma blankb_iff n : blankb n = true <-> blank n.
Proof. unfold blankb, blank. lia. Qed.

Lemma ws_one c r : (N_of_ascii c < 128)%N ->
  ws_len (c :: r) = if blankb (N_of_ascii c) then 1 else 0.
Proof.
  destruct c as [[|] [|] [|] [|] [|] [|] [|] [|]]; intros H; try reflexivity;
    exfalso; revert H; vm_compute; discriminate.
Qed.
Lemma ws_two_other c r : (192 <= N_of_ascii c < 224)%N -> N_of_ascii c <> 194%N -> ws_len (c :: r) = 0.
Proof.
  destruct c as [[|] [|] [|] [|] [|] [|] [|] [|]]; intros [H H'] D; try reflexivity;
    exfalso; first [now apply D | revert H; vm_compute; congruence | revert H'; vm_compute; congruence].
Qed.
Lemma ws_two c r : (128 <= N_of_ascii c < 192)%N ->
  ws_len (chr 194 :: c :: r) = if blankb (N_of_ascii c) then 2 else 0.
Proof.
  destruct c as [[|] [|] [|] [|] [|] [|] [|] [|]]; intros [H H']; try reflexivity;
    exfalso; first [revert H; vm_compute; congruence | revert H'; vm_compute; congruence].
Qed.
Lemma ws_high c r : (240 <= N_of_ascii c)%N -> ws_len (c :: r) = 0.
Proof.
  destruct c as [[|] [|] [|] [|] [|] [|] [|] [|]]; intros H; try reflexivity;
    exfalso; revert H; vm_compute; congruence.
Qed.
Lemma ws_three_other c r : (224 <= N_of_ascii c < 240)%N -> ~ (225 <= N_of_ascii c <= 227)%N ->
  ws_len (c :: r) = 0.
Proof.
  destruct c as [[|] [|] [|] [|] [|] [|] [|] [|]]; intros [H H'] D; try reflexivity;
    exfalso; first [apply D; split; vm_compute; congruence | revert H; vm_compute; congruence | revert H'; vm_compute; congruence].
Qed.
Lemma ws_225 c d r : ws_len (chr 225 :: c :: d :: r) =
  if ((N_of_ascii c =? 154) && (N_of_ascii d =? 128))%N then 3 else 0.
Proof.
  destruct c as [[|] [|] [|] [|] [|] [|] [|] [|]]; try reflexivity;
    destruct d as [[|] [|] [|] [|] [|] [|] [|] [|]]; reflexivity.
Qed.
Lemma ws_226 c d r : (128 <= N_of_ascii d < 192)%N -> ws_len (chr 226 :: c :: d :: r) =
  if ((N_of_ascii c =? 128) && blankb (8192 + (N_of_ascii d - 128))
      || (N_of_ascii c =? 129) && (N_of_ascii d =? 159))%N then 3 else 0.
Proof.
  destruct c as [[|] [|] [|] [|] [|] [|] [|] [|]]; try reflexivity;
    destruct d as [[|] [|] [|] [|] [|] [|] [|] [|]]; intros [H H']; try reflexivity;
    exfalso; first [revert H; vm_compute; congruence | revert H'; vm_compute; congruence].
Qed.
Lemma ws_227 c d r : ws_len (chr 227 :: c :: d :: r) =
  if ((N_of_ascii c =? 128) && (N_of_ascii d =? 128))%N then 3 else 0.
Proof.
  destruct c as [[|] [|] [|] [|] [|] [|] [|] [|]]; try reflexivity;
    destruct d as [[|] [|] [|] [|] [|] [|] [|] [|]]; reflexivity.
Qed.

Lemma chr_N n : (n < 256)%N -> N_of_ascii (chr n) = n.
Proof. exact (N_ascii_embedding n). Qed.
Lemma ite_same {A} (b c : bool) (x y : A) : (b = true <-> c = true) -> (if b then x else y) = if c then x else y.
Proof. intros H. apply eq_iff_eq_true in H. now rewrite H. Qed.
Lemma ws_char n r : scalar n ->
  ws_len (utf8_char n ++ r) = if blankb n then length (utf8_char n) else 0.
Proof.
  intros S. assert (U : (n < 1114112)%N) by (unfold scalar in S; lia). clear S.
  unfold utf8_char. destruct (N.ltb_spec n 128) as [A|A].
  { cbn [app length]. rewrite ws_one; rewrite chr_N by lia; [reflexivity|exact A]. }
  destruct (N.ltb_spec n 2048) as [B|B].
  { cbn [app length].
    pose proof (N.div_mod n 64 ltac:(lia)) as E. pose proof (N.mod_lt n 64 ltac:(lia)) as M.
    assert (D : (n / 64 < 32)%N) by (apply N.div_lt_upper_bound; lia).
    set (q := (n / 64)%N) in *. set (m := (n mod 64)%N) in *.
    destruct (N.eq_dec q 2) as [->|F].
    - rewrite ws_two by (rewrite chr_N; lia). rewrite chr_N by lia. replace (128 + m)%N with n by lia. reflexivity.
    - rewrite ws_two_other by (rewrite chr_N; lia). replace (blankb n) with false; [reflexivity|].
      symmetry. apply not_true_iff_false. rewrite blankb_iff. unfold blank. lia. }
  destruct (N.ltb_spec n 65536) as [C|C].
  { cbn [app length].
    pose proof (N.div_mod n 64 ltac:(lia)) as E. pose proof (N.mod_lt n 64 ltac:(lia)) as M.
    pose proof (N.div_mod (n / 64) 64 ltac:(lia)) as E'. pose proof (N.mod_lt (n / 64) 64 ltac:(lia)) as M'.
    replace (n / 4096)%N with (n / 64 / 64)%N by (rewrite N.div_div by lia; reflexivity).
    set (q := (n / 64)%N) in *. set (m := (n mod 64)%N) in *.
    set (q' := (q / 64)%N) in *. set (m' := (q mod 64)%N) in *.
    assert (D : (q' < 16)%N) by lia.
    destruct (N.eq_dec q' 1) as [->|F1]; [|destruct (N.eq_dec q' 2) as [->|F2]; [|destruct (N.eq_dec q' 3) as [->|F3]]].
    - change (224 + 1)%N with 225%N. rewrite ws_225, !chr_N by lia. apply ite_same.
      rewrite blankb_iff. unfold blank. lia.
    - change (224 + 2)%N with 226%N. rewrite ws_226, !chr_N by (rewrite ?chr_N; lia).
      apply ite_same.
      rewrite orb_true_iff, !andb_true_iff, !blankb_iff. unfold blank. lia.
    - change (224 + 3)%N with 227%N. rewrite ws_227, !chr_N by lia. apply ite_same.
      rewrite blankb_iff. unfold blank. lia.
    - rewrite ws_three_other by (rewrite chr_N; lia). replace (blankb n) with false; [reflexivity|].
      symmetry. apply not_true_iff_false. rewrite blankb_iff. unfold blank. lia. }
  cbn [app]. rewrite ws_high.
  - replace (blankb n) with false; [reflexivity|].
    symmetry. apply not_true_iff_false. rewrite blankb_iff. unfold blank. lia.
  - assert (n / 262144 < 5)%N by (apply N.div_lt_upper_bound; lia). rewrite chr_N; lia.
Qed.

Lemma ws_cont c r : (128 <= N_of_ascii c < 192)%N -> ws_len (c :: r) = 0.
Proof.
  destruct c as [[|] [|] [|] [|] [|] [|] [|] [|]]; intros [H H']; try reflexivity;
    exfalso; first [revert H; vm_compute; congruence | revert H'; vm_compute; congruence].
Qed.
(** A character is its first byte and up to three that begin no character. *)
Lemma char_bytes n : scalar n -> exists (c : byte) (x : bytes), utf8_char n = c :: x /\ Forall (fun d => (128 <= N_of_ascii d < 192)%N) x.
Proof.
  intros S. assert (U : (n < 1114112)%N) by (unfold scalar in S; lia). clear S. unfold utf8_char.
  assert (M : forall m, (128 <= N_of_ascii (chr (128 + m mod 64)) < 192)%N).
  { intros m. pose proof (N.mod_lt m 64 ltac:(lia)). rewrite chr_N; lia. }
  repeat match goal with |- context [if ?b then _ else _] => destruct b end;
    do 2 eexists; (split; [reflexivity|]); repeat constructor; apply M.
Qed.

(** * Words *)

Lemma words_skip x : forall cur r, words_from cur (length x) (x ++ r) = words_from cur 0 r.
Proof.
  induction x as [|c x IH]; intros cur r; [reflexivity|]. cbn [length app words_from]. apply IH.
Qed.
Lemma words_cont x : Forall (fun d => (128 <= N_of_ascii d < 192)%N) x ->
  forall cur r, words_from cur 0 (x ++ r) = words_from (cur ++ x) 0 r.
Proof.
  intros F. induction F as [|c x C F IH]; intros cur r; [now rewrite app_nil_r|].
  cbn [app words_from]. rewrite ws_cont by exact C. rewrite IH, <- app_assoc. reflexivity.
Qed.
Lemma blank_scalar n : blank n -> scalar n.
Proof. unfold blank, scalar. lia. Qed.
Lemma words_blank n cur r : blank n -> words_from cur 0 (utf8_char n ++ r) = flush cur ++ words_from [] 0 r.
Proof.
  intros B. pose proof (ws_char n r (blank_scalar n B)) as W. apply blankb_iff in B as B'. rewrite B' in W.
  destruct (char_bytes n (blank_scalar n B)) as (c & x & E & _). rewrite E in *. cbn [app length words_from] in *.
  rewrite W. rewrite words_skip. reflexivity.
Qed.
Lemma inked_blankb n : inked n -> blankb n = false.
Proof. intros [_ H]. apply not_true_iff_false. now rewrite blankb_iff. Qed.
Lemma words_inked n cur r : inked n -> words_from cur 0 (utf8_char n ++ r) = words_from (cur ++ utf8_char n) 0 r.
Proof.
  intros K. pose proof (ws_char n r (proj1 K)) as W. rewrite (inked_blankb n K) in W.
  destruct (char_bytes n (proj1 K)) as (c & x & E & F). rewrite E in *. cbn [app words_from] in *.
  rewrite W, words_cont by exact F. now rewrite <- app_assoc.
Qed.
Lemma words_ink w : Forall inked w -> forall cur r, words_from cur 0 (text w ++ r) = words_from (cur ++ text w) 0 r.
Proof.
  intros F. induction F as [|n w K F IH]; intros cur r; cbn [text flat_map]; [now rewrite app_nil_r|].
  fold (text w). rewrite <- app_assoc, words_inked by exact K. rewrite IH, <- app_assoc. reflexivity.
Qed.
Lemma text_app a b : text (a ++ b) = text a ++ text b.
Proof. apply flat_map_app. Qed.
Lemma text_nonempty w : w <> [] -> Forall scalar w -> text w <> [].
Proof.
  intros N F. destruct F as [|n w S F]; [congruence|]. cbn [text flat_map].
  destruct (char_bytes n S) as (c & x & -> & _). discriminate.
Qed.
Theorem words_text cps ws : parted cps ws -> words (text cps) = map text ws.
Proof.
  unfold words. induction 1 as [|n cps ws B P IH|w cps ws N F E P IH].
  - reflexivity.
  - cbn [text flat_map]. fold (text cps). rewrite words_blank by exact B. exact IH.
  - rewrite text_app, words_ink by exact F. cbn [app map].
    assert (X : forall r, flush (text w) ++ r = text w :: r).
    { intros r. pose proof (text_nonempty w N (Forall_impl _ (fun n => @proj1 _ _) F)).
      destruct (text w); [congruence|reflexivity]. }
    destruct E as [->|(n & r & -> & B)].
    + cbn [text flat_map] in *. rewrite <- IH. cbn [words_from flush]. exact (eq_sym (eq_trans (eq_sym (X [])) (app_nil_r _))).
    + cbn [text flat_map] in *. fold (text r) in *. rewrite words_blank in IH |- * by exact B. cbn [flush app] in IH.
      rewrite IH. apply X.
Qed.

(** * Trimming *)

Lemma trim_skip x : forall r, trim_start (length x) (x ++ r) = trim_start 0 r.
Proof. induction x as [|c x IH]; intros r; [reflexivity|]. cbn [length app trim_start]. apply IH. Qed.
Lemma all_skip x : forall r, all_ws (length x) (x ++ r) = all_ws 0 r.
Proof. induction x as [|c x IH]; intros r; [reflexivity|]. cbn [length app all_ws]. apply IH. Qed.
Lemma trim_blanks a r : Forall blank a -> trim_start 0 (text a ++ r) = trim_start 0 r.
Proof.
  induction 1 as [|n a B F IH]; [reflexivity|]. cbn [text flat_map]. fold (text a). rewrite <- app_assoc.
  pose proof (ws_char n (text a ++ r) (blank_scalar n B)) as W. apply blankb_iff in B as B'. rewrite B' in W.
  destruct (char_bytes n (blank_scalar n B)) as (c & x & E & _). rewrite E in *. cbn [app length trim_start] in *.
  rewrite W, trim_skip. exact IH.
Qed.
Lemma trim_start_ink n r : inked n -> trim_start 0 (utf8_char n ++ r) = utf8_char n ++ r.
Proof.
  intros K. pose proof (ws_char n r (proj1 K)) as W. rewrite (inked_blankb n K) in W.
  destruct (char_bytes n (proj1 K)) as (c & x & E & F). rewrite E in *. cbn [app trim_start] in *.
  rewrite W. reflexivity.
Qed.
Lemma all_blanks b : Forall blank b -> all_ws 0 (text b) = true.
Proof.
  induction 1 as [|n a B F IH]; [reflexivity|]. cbn [text flat_map]. fold (text a).
  pose proof (ws_char n (text a) (blank_scalar n B)) as W. apply blankb_iff in B as B'. rewrite B' in W.
  destruct (char_bytes n (blank_scalar n B)) as (c & x & E & _). rewrite E in *. cbn [app length all_ws] in *.
  rewrite W, all_skip. exact IH.
Qed.
Lemma all_ink n r : inked n -> all_ws 0 (utf8_char n ++ r) = false.
Proof.
  intros K. pose proof (ws_char n r (proj1 K)) as W. rewrite (inked_blankb n K) in W.
  destruct (char_bytes n (proj1 K)) as (c & x & E & F). rewrite E in *. cbn [app all_ws] in *.
  now rewrite W.
Qed.
(** Whitespace is followed by a character that is none. *)
Lemma all_ends l : Forall scalar l -> forall n r, inked n -> all_ws 0 (text l ++ utf8_char n ++ r) = false.
Proof.
  induction 1 as [|m l S F IH]; intros n r K; [now apply all_ink|]. cbn [text flat_map]. fold (text l).
  rewrite <- app_assoc. pose proof (ws_char m (text l ++ utf8_char n ++ r) S) as W.
  destruct (char_bytes m S) as (c & x & E & _). rewrite E in *. cbn [app length all_ws] in *. rewrite W.
  destruct (blankb m); [|reflexivity]. rewrite all_skip. now apply IH.
Qed.
Lemma trim_end_cont x : Forall (fun d => (128 <= N_of_ascii d < 192)%N) x ->
  forall r, trim_end (x ++ r) = x ++ trim_end r.
Proof.
  intros F. induction F as [|c x C F IH]; intros r; [reflexivity|].
  cbn [app trim_end all_ws]. rewrite ws_cont by exact C. now rewrite IH.
Qed.
Lemma trim_end_char n r : scalar n -> all_ws 0 (utf8_char n ++ r) = false ->
  trim_end (utf8_char n ++ r) = utf8_char n ++ trim_end r.
Proof.
  intros S A. destruct (char_bytes n S) as (c & x & E & F). rewrite E in *.
  change ((c :: x) ++ r) with (c :: (x ++ r)) in *. cbn [trim_end]. rewrite A, trim_end_cont by exact F. reflexivity.
Qed.
Lemma trim_end_blanks b : Forall blank b -> trim_end (text b) = [].
Proof.
  intros F. pose proof (all_blanks b F) as A. destruct (text b); [reflexivity|]. cbn [trim_end]. now rewrite A.
Qed.
Lemma trim_end_text l : forall n b, Forall scalar l -> inked n -> Forall blank b ->
  trim_end (text l ++ utf8_char n ++ text b) = text l ++ utf8_char n.
Proof.
  induction l as [|m l IH]; intros n b F K B.
  - cbn [text flat_map app]. rewrite trim_end_char by (try apply all_ink; try apply K; exact K).
    now rewrite trim_end_blanks, app_nil_r.
  - inversion F as [|? ? S F']; subst. cbn [text flat_map]. fold (text l). rewrite <- !app_assoc.
    rewrite trim_end_char; [now rewrite IH|exact S|].
    pose proof (all_ends (m :: l) F n (text b) K) as A. cbn [text flat_map] in A. fold (text l) in A.
    now rewrite <- app_assoc in A.
Qed.
Theorem trim_text a cps b : Forall blank a -> Forall blank b -> Forall scalar cps ->
  (forall n r, cps = n :: r -> ~ blank n) -> (forall r n, cps = r ++ [n] -> ~ blank n) ->
  trim (text (a ++ cps ++ b)) = text cps.
Proof.
  intros A B S H L. unfold trim. rewrite !text_app, trim_blanks by exact A.
  destruct cps as [|n r] eqn:E.
  - pose proof (trim_blanks b [] B) as T. rewrite app_nil_r in T. cbn [text flat_map app]. fold (text b).
    rewrite T. reflexivity.
  - rewrite <- E in *. assert (K : inked n).
    { split; [|now apply (H n r)]. rewrite E in S. now inversion S. }
    assert (T : trim_start 0 (text cps ++ text b) = text cps ++ text b).
    { rewrite E. cbn [text flat_map]. rewrite <- app_assoc. now apply trim_start_ink. }
    rewrite T. assert (N : cps <> []) by (rewrite E; discriminate).
    destruct (exists_last N) as (l & z & E'). rewrite E' in S |- *. apply Forall_app in S. destruct S as [S1 S2].
    rewrite text_app. replace (text [z]) with (utf8_char z) by (symmetry; apply app_nil_r).
    rewrite <- app_assoc. apply trim_end_text; [exact S1| |exact B].
    split; [now inversion S2|now apply (L l)].
Qed.
(** Every text has such a middle part. *)
Lemma blank_dec n : {blank n} + {~ blank n}.
Proof.
  destruct (blankb n) eqn:E; [left|right].
  - now apply blankb_iff.
  - rewrite <- blankb_iff. congruence.
Qed.
Lemma cut_front cps : Forall scalar cps -> exists a m, cps = a ++ m /\ Forall blank a /\ Forall scalar m /\ (forall n r, m = n :: r -> ~ blank n).
Proof.
  induction 1 as [|n l S F (a & m & E & A & M & H)].
  - exists [], []. split; [reflexivity|]. split; [constructor|]. split; [constructor|discriminate].
  - destruct (blank_dec n) as [B|B].
    + exists (n :: a), m. rewrite E. repeat split; auto.
    + exists [], (n :: l). repeat split; auto. intros ? ? [= <- <-]. exact B.
Qed.
Lemma cut_end cps : Forall scalar cps -> exists m b, cps = m ++ b /\ Forall blank b /\ Forall scalar m /\ (forall r n, m = r ++ [n] -> ~ blank n).
Proof.
  induction cps as [|n l IH] using rev_ind; intros S.
  - exists [], []. split; [reflexivity|]. split; [constructor|]. split; [constructor|].
    intros r k E. destruct (app_cons_not_nil _ _ _ E).
  - apply Forall_app in S. destruct S as [S1 S2]. destruct (blank_dec n) as [B|B].
    + destruct (IH S1) as (m & b & E & F & M & H). exists m, (b ++ [n]). rewrite E, app_assoc.
      repeat split; auto. apply Forall_app. auto.
    + exists (l ++ [n]), []. rewrite app_nil_r. repeat split; auto.
      * apply Forall_app. auto.
      * intros r k E. apply app_inj_tail in E. destruct E as [_ <-]. exact B.
Qed.
Lemma trim_around a cps b : Forall blank a -> Forall blank b -> Forall scalar cps ->
  trim (text (a ++ cps ++ b)) = trim (text cps).
Proof.
  intros A B S. destruct (cut_front cps S) as (a' & m & -> & A' & M & H).
  destruct (cut_end m M) as (m' & b' & -> & B' & M' & L).
  assert (H' : forall n r, m' = n :: r -> ~ blank n).
  { intros n r ->. apply (H n (r ++ b')). reflexivity. }
  rewrite (trim_text a' m' b' A' B' M' H' L).
  replace (a ++ (a' ++ m' ++ b') ++ b) with ((a ++ a') ++ m' ++ b' ++ b) by now rewrite !app_assoc.
  apply trim_text; auto; apply Forall_app; auto.
Qed.
Theorem client_trims c a cps b : Forall blank a -> Forall blank b -> Forall scalar cps ->
  cl_step c (Some (text (a ++ cps ++ b))) = cl_step c (Some (text cps)).
Proof. intros A B S. unfold cl_step. cbn [option_map]. now rewrite trim_around. Qed.

(** * Bytes that are no text *)

Lemma join_numbers c b : numbers (c :: b) (join (lit ", ") (map (fun c => fmt_u32 (N_of_ascii c)) (c :: b))).
Proof.
  revert c. induction b as [|d b IH]; intros c.
  - constructor. apply fmt_u32_decimal.
  - change (numbers (c :: d :: b) (fmt_u32 (N_of_ascii c) ++ lit ", " ++
      join (lit ", ") (map (fun c => fmt_u32 (N_of_ascii c)) (d :: b)))).
    constructor; [apply fmt_u32_decimal|apply IH].
Qed.
Theorem interop_binary e vars i d v s' x :
  fresh e (interop_server_app vars) SServer i d = Some v ->
  calls (cn_env v) (cn_session v) s' -> s_val s' = Some x ->
  In (d_name d) [lit "PLAIN"; lit "LOGIN"] ->
  exists evs c u p, new_events (cn_session v) s' evs /\ In c (validations evs) /\
    get_ref c PAuthId = Some u /\ get_ref c PPassword = Some p /\
    (utf8_text p /\ lit "OK " ++ x = valid_line u (get_ref c PAuthzId) (Some p) \/
     ~ utf8_text p /\ exists t, numbers p t /\
       lit "OK " ++ x = valid_line u (get_ref c PAuthzId) (Some (lit "[" ++ t ++ lit "]"))).
Proof.
  intros F C V D. destruct i as [m|]; [|discriminate]. injection F as <-. cbn [cn_env cn_session] in *.
  set (e' := with_app _ _ _ _) in *.
  destruct (validation_first e' (mk_session m [] 0 None) s' (Some x) eq_refl C) as [evs [N Q]].
  destruct (first_some _ _ _ _ (proj2 Q V)) as [tr [c [I P]]]. exists evs, c.
  destruct P as [cs [y [H1 [H2 H3]]]].
  change (vfollows (interop_vcb tr (mk_sdata (d_name d) SServer) c) cs y) in H1.
  change (e_vtag e') with test_validation in *.
  unfold interop_vcb in H1. cbn [sd_mech] in H1.
  assert (K : forall z, vfollows (VRet z) cs y -> False).
  { intros z K. inversion K; subst. discriminate H3. }
  assert (J : forall b, vfollows (VFinalize test_validation b (VRet None)) cs y -> x = b).
  { intros b J. inversion J as [|? ? ? cs0 ? J1| |]; subst. inversion J1; subst.
    cbn [first_final] in H3. rewrite Nat.eqb_refl in H3. now injection H3. }
  replace (bytes_eqb (d_name d) (lit "PLAIN") || bytes_eqb (d_name d) (lit "LOGIN")) with true in H1
    by (destruct D as [<-|[<-|[]]]; reflexivity).
  destruct (get_ref c PAuthId) as [u|] eqn:U; [|now apply K in H1].
  destruct (get_ref c PPassword) as [p|] eqn:W; [|now apply K in H1].
  apply J in H1. exists u, p. split; [exact N|]. split; [exact I|]. split; [reflexivity|].
  split; [reflexivity|]. destruct (utf8_valid p) eqn:T.
  - left. split; [now apply utf8_exact|]. rewrite H1. apply valid_line_eq. now intros z [= <-].
  - right. split; [rewrite <- utf8_exact; congruence|]. destruct p as [|a p]; [discriminate T|].
    exists (join (lit ", ") (map (fun c => fmt_u32 (N_of_ascii c)) (a :: p))). split; [apply join_numbers|].
    rewrite H1. unfold interop_validation. rewrite T. reflexivity.
Qed.

(** ** The variables behind the answers *)

Lemma server_cb_bubbling vars tr sd c k : bubbling (interop_server_cb vars tr sd c k).
Proof.
  unfold interop_server_cb, from_var. cbn. intros [|].
  { destruct (vars _); cbn; auto. }
  intros [|]. { destruct (vars _); cbn; auto. }
  intros [|]; [|exact I]. destruct (get_ref c PAuthId); [|exact I].
  destruct (bytes_eqb _ _); cbn; auto.
Qed.

Lemma client_variables : forall e sd vcb vars,
  let e' := with_app e sd (interop_client_cb vars) vcb in
  answers_with e' PAuthId (vars (lit "RSASL_AUTHID")) /\
  answers_with e' PPassword (vars (lit "RSASL_PASSWORD")) /\
  answers_with e' PAuthzId (vars (lit "RSASL_AUTHZID")) /\
  answers_with e' POverrideCBType (vars (lit "RSASL_CBNAME")) /\
  answers_with e' PChannelBindings (vars (lit "RSASL_CBDATA")) /\
  answers_with e' PGssService (vars (lit "RSASL_SERVICE")) /\
  answers_with e' PHostname (vars (lit "RSASL_HOST")) /\
  forall q, ~ In q [PAuthId; PPassword; PAuthzId; POverrideCBType; PChannelBindings; PGssService;
                    PHostname] -> withholds e' q.
Proof.
  intros e sd vcb vars e'.
  assert (B : forall tr c k, bubbling (e_cb e' tr (e_sd e') c k))
    by (intros; apply client_cb_bubbling).
  repeat match goal with
  | |- answers_with _ _ (vars ?k) /\ _ =>
      split; [unfold answers_with; destruct (vars k) as [x|] eqn:V; intros tr c;
              (split; [apply B|]); cbn -[lit]; unfold from_var; rewrite V; cbn; auto|]
  end.
  intros q N tr c. split; [apply B|]. left.
  destruct q; try reflexivity; exfalso; apply N; cbn; tauto.
Qed.

Lemma server_variables : forall e sd vcb vars,
  let e' := with_app e sd (interop_server_cb vars) vcb in
  answers_with e' POverrideCBType (vars (lit "RSASL_CBNAME")) /\
  answers_with e' PChannelBindings (vars (lit "RSASL_CBDATA")) /\
  forall q, ~ In q [POverrideCBType; PChannelBindings; PScramStoredPassword] -> withholds e' q.
Proof.
  intros e sd vcb vars e'.
  assert (B : forall tr c k, bubbling (e_cb e' tr (e_sd e') c k))
    by (intros; apply server_cb_bubbling).
  repeat match goal with
  | |- answers_with _ _ (vars ?k) /\ _ =>
      split; [unfold answers_with; destruct (vars k) as [x|] eqn:V; intros tr c;
              (split; [apply B|]); cbn -[lit]; unfold from_var; rewrite V; cbn; auto|]
  end.
  intros q N tr c. split; [apply B|]. left.
  destruct q; try reflexivity; exfalso; apply N; cbn; tauto.
Qed.

(** ** The first line of the server *)

Definition codes (b : bytes) : list N := map N_of_ascii b.
Lemma text_codes b : Forall name_byte b -> text (codes b) = b.
Proof.
  induction 1 as [|c b H F IH]; [reflexivity|]. unfold text, codes in *. cbn [map flat_map]. rewrite IH.
  unfold utf8_char. assert (L : (N_of_ascii c <? 128 = true)%N) by (unfold name_byte in H; lia). rewrite L.
  unfold chr. rewrite ascii_N_embedding. reflexivity.
Qed.
Lemma codes_inked b : Forall name_byte b -> Forall inked (codes b).
Proof.
  induction 1 as [|c b H F IH]; [constructor|]. constructor; [|exact IH].
  unfold name_byte in H. unfold inked, scalar, blank. lia.
Qed.

Definition offer_codes (l : list mechanism) : list N :=
  flat_map (fun d => codes (d_name d) ++ [32%N]) l ++ [10%N].
Lemma offer_parted l : Forall (fun d => d_name d <> [] /\ Forall name_byte (d_name d)) l ->
  parted (offer_codes l) (map (fun d => codes (d_name d)) l).
Proof.
  induction 1 as [|d l [N F] H IH].
  - apply parted_blank; [unfold blank; lia|constructor].
  - unfold offer_codes in *. cbn [flat_map map]. rewrite <- !app_assoc. apply parted_word.
    + destruct (d_name d); [congruence|discriminate].
    + apply codes_inked. exact F.
    + right. exists 32%N. eexists. split; [reflexivity|unfold blank; lia].
    + apply parted_blank; [unfold blank; lia|exact IH].
Qed.
Lemma offer_text l : Forall (fun d => d_name d <> [] /\ Forall name_byte (d_name d)) l ->
  text (offer_codes l) = flat_map (fun d => d_name d ++ lit " ") l ++ nl.
Proof.
  induction 1 as [|d l [N F] H IH]; [reflexivity|].
  unfold offer_codes in *. cbn [flat_map]. rewrite <- !app_assoc, !text_app in *. rewrite text_codes by exact F.
  f_equal. rewrite <- app_assoc in IH || idtac. change (text [32%N]) with (lit " "). f_equal. exact IH.
Qed.

Theorem server_offers e a show :
  Forall (fun m => d_name m <> [] /\ Forall name_byte (d_name m)) (ap_registry a) ->
  exists line, handle_client e a show SvMechs = AWrite line SvSelect /\
    words line = map d_name (filter d_has_server (ap_registry a)).
Proof.
  intros F. eexists. split; [reflexivity|]. unfold mechs_line, get_available.
  assert (G : Forall (fun m => d_name m <> [] /\ Forall name_byte (d_name m)) (filter d_has_server (ap_registry a))).
  { rewrite Forall_forall in *. intros m H. apply filter_In in H. apply F, H. }
  rewrite <- offer_text by exact G. rewrite (words_text _ _ (offer_parted _ G)). rewrite map_map.
  apply map_ext_in. intros m H. rewrite Forall_forall in G. apply text_codes. apply G. exact H.
Qed.
