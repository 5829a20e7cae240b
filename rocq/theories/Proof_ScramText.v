(** Lemmas about SCRAM names and message texts. *)
From Coq Require Import Lia ZArith ZifyN ZifyBool.
From Verif Require Import Bytes BytesFacts Utf8 Utf8Facts Types World OAuth ScramParser Scram
  Spec_OAuth Spec_ScramText Proof_OAuth.

(** * Names *)

Lemma escape_char_cases b :
  (b = comma /\ escape_char b = lit "=2C") \/ (b = equals /\ escape_char b = lit "=3D") \/
  (b <> comma /\ b <> equals /\ escape_char b = [b]).
Proof.
  unfold escape_char, is_comma, is_equals. destruct (beq b comma) eqn:E1.
  - apply beq_eq in E1. auto.
  - apply beq_neq in E1. destruct (beq b equals) eqn:E2.
    + apply beq_eq in E2. auto.
    + apply beq_neq in E2. auto.
Qed.

Lemma unescape_flat x : rfc_unescape (flat_map escape_char x) = Some x.
Proof.
  induction x as [|b x IH]; [reflexivity|]. cbn [flat_map].
  destruct (escape_char_cases b) as [[-> ->]|[[-> ->]|[H1 [H2 ->]]]].
  - cbn. rewrite IH. reflexivity.
  - cbn. rewrite IH. reflexivity.
  - cbn [app rfc_unescape]. apply beq_neq in H1, H2. unfold beq, comma, equals in *.
    rewrite H1, H2, IH. reflexivity.
Qed.

Lemma flat_plain x : contains comma x || contains equals x = false -> flat_map escape_char x = x.
Proof.
  induction x as [|b x IH]; intros H; [reflexivity|]. cbn [flat_map].
  apply Bool.orb_false_iff in H. destruct H as [H1 H2].
  apply contains_not_In in H1, H2.
  destruct (escape_char_cases b) as [[-> _]|[[-> _]|[_ [_ ->]]]].
  - exfalso. apply H1. left. reflexivity.
  - exfalso. apply H2. left. reflexivity.
  - cbn [app]. f_equal. apply IH. apply Bool.orb_false_iff. split; apply contains_not_In;
      intros Hi; [apply H1|apply H2]; right; assumption.
Qed.

Lemma escape_flat x y : escape x = Ok y <-> x <> [] /\ ~ In zero x /\ y = flat_map escape_char x.
Proof.
  unfold escape. destruct x as [|b x].
  - split; [discriminate|]. intros [H _]. congruence.
  - destruct (contains zero (b :: x)) eqn:E0.
    + split; [discriminate|]. intros [_ [H _]]. apply contains_In in E0. contradiction.
    + apply contains_not_In in E0.
      destruct (contains comma (b :: x) || contains equals (b :: x)) eqn:E.
      * split; [intros H; injection H as <-; split; [discriminate|auto]|].
        intros [_ [_ ->]]. reflexivity.
      * rewrite flat_plain by assumption. split; [intros H; injection H as <-; split; [discriminate|auto]|].
        intros [_ [_ ->]]. reflexivity.
Qed.

Lemma rfc_unescape_len n : forall y, length y <= n -> forall x,
  rfc_unescape y = Some x -> y = flat_map escape_char x.
Proof.
  induction n as [|n IH]; intros y Hn x H.
  - destruct y; [|simpl in Hn; lia]. injection H as <-. reflexivity.
  - destruct y as [|c y]; [injection H as <-; reflexivity|]. simpl in Hn.
    cbn [rfc_unescape] in H. destruct (Ascii.eqb_spec c ",") as [|Hc]; [discriminate|].
    destruct (Ascii.eqb_spec c "=") as [->|He].
    + destruct y as [|a [|b y]]; try discriminate.
      destruct (Ascii.eqb_spec a "2") as [->|H2], (Ascii.eqb_spec b "C") as [->|HC];
        cbn [andb] in H.
      * destruct (rfc_unescape y) eqn:E; [|discriminate]. injection H as <-.
        apply IH in E; [|simpl in Hn; lia]. cbn. rewrite <- E. reflexivity.
      * change (Ascii.eqb "2" "3") with false in H. discriminate.
      * destruct (Ascii.eqb a "3"), (Ascii.eqb "C" "D") eqn:E; cbn [andb] in H; try discriminate.
      * destruct (Ascii.eqb_spec a "3") as [->|H3], (Ascii.eqb_spec b "D") as [->|HD];
          cbn [andb] in H; try discriminate.
        destruct (rfc_unescape y) eqn:E; [|discriminate]. injection H as <-.
        apply IH in E; [|simpl in Hn; lia]. cbn. rewrite <- E. reflexivity.
    + destruct (rfc_unescape y) eqn:E; [|discriminate]. injection H as <-.
      apply IH in E; [|lia]. cbn [flat_map].
      destruct (escape_char_cases c) as [[-> _]|[[-> _]|[_ [_ ->]]]];
        [exfalso; apply Hc; reflexivity|exfalso; apply He; reflexivity|].
      cbn [app]. congruence.
Qed.

Lemma rfc_unescape_some x y : rfc_unescape y = Some x <-> y = flat_map escape_char x.
Proof.
  split; [apply (rfc_unescape_len (length y)); lia|]. intros ->. apply unescape_flat.
Qed.

Theorem escape_exact x y :
  escape x = Ok y <-> x <> [] /\ ~ In (chr 0) x /\ rfc_unescape y = Some x.
Proof. rewrite escape_flat, rfc_unescape_some. reflexivity. Qed.

Theorem escape_refused x :
  (exists e, escape x = Err e) <-> x = [] \/ In (chr 0) x.
Proof.
  destruct (escape x) as [y|e|] eqn:E.
  - apply escape_flat in E. destruct E as [H1 [H2 _]]. split; [intros [? H]; discriminate|].
    intros [->|H]; [congruence|contradiction].
  - split; [|eauto]. intros _. unfold escape in E. destruct x as [|b x]; [auto|].
    destruct (contains zero (b :: x)) eqn:E0; [apply contains_In in E0; auto|].
    destruct (contains comma (b :: x) || contains equals (b :: x)); discriminate.
  - exfalso. unfold escape in E. destruct x as [|b x]; [discriminate|].
    destruct (contains zero (b :: x)); [discriminate|].
    destruct (contains comma (b :: x) || contains equals (b :: x)); discriminate.
Qed.

Theorem escape_injective x x' y : escape x = Ok y -> escape x' = Ok y -> x = x'.
Proof.
  intros H H'. apply escape_exact in H, H'. destruct H as [_ [_ H]], H' as [_ [_ H']]. congruence.
Qed.

Lemma flat_no_comma x : ~ In comma (flat_map escape_char x).
Proof.
  intros H. apply in_flat_map in H. destruct H as [b [_ H]].
  destruct (escape_char_cases b) as [[_ E]|[[_ E]|[H1 [_ E]]]]; rewrite E in H; cbn in H.
  - intuition discriminate.
  - intuition discriminate.
  - destruct H as [H|[]]. congruence.
Qed.

Lemma escape_no_comma x y : escape x = Ok y -> free ","%char y.
Proof. rewrite escape_flat. intros [_ [_ ->]]. apply flat_no_comma. Qed.

(** An equals sign in the output always begins one of the two sequences. *)
Lemma flat_equals x : forall a r, flat_map escape_char x = a ++ "="%char :: r ->
  exists r', r = lit "2C" ++ r' \/ r = lit "3D" ++ r'.
Proof.
  induction x as [|b x IH]; intros a r H.
  - destruct a; discriminate.
  - cbn [flat_map] in H.
    destruct (escape_char_cases b) as [[_ E]|[[_ E]|[H1 [H2 E]]]]; rewrite E in H; clear E; cbn in H.
    + destruct a as [|a0 a]; [injection H as <-; exists (flat_map escape_char x); auto|]. injection H as <- H.
      destruct a as [|a0 a]; [discriminate|]. injection H as <- H.
      destruct a as [|a0 a]; [discriminate|]. injection H as <- H. eauto.
    + destruct a as [|a0 a]; [injection H as <-; exists (flat_map escape_char x); auto|]. injection H as <- H.
      destruct a as [|a0 a]; [discriminate|]. injection H as <- H.
      destruct a as [|a0 a]; [discriminate|]. injection H as <- H. eauto.
    + destruct a as [|a0 a]; injection H as Hb H; [exfalso; apply H2; exact Hb|]. eauto.
Qed.

Lemma escape_equals x y a r : escape x = Ok y -> y = a ++ "="%char :: r ->
  exists r', r = lit "2C" ++ r' \/ r = lit "3D" ++ r'.
Proof. rewrite escape_flat. intros [_ [_ ->]]. apply flat_equals. Qed.

Lemma flat_nonempty x : x <> [] -> flat_map escape_char x <> [].
Proof.
  destruct x as [|b x]; [congruence|]. intros _ H. cbn [flat_map] in H.
  destruct (escape_char_cases b) as [[_ E]|[[_ E]|[_ [_ E]]]]; rewrite E in H; discriminate.
Qed.

(** * Unescaping *)

Lemma split_at_equals_ex x : In equals x -> exists g r, split_at_byte equals x = Some (g, equals :: r).
Proof.
  intros H. destruct (split_at_byte equals x) as [[g r]|] eqn:E.
  - pose proof E as E'. apply split_at_byte_some in E'. destruct E' as [_ [_ [r' ->]]]. eauto.
  - apply split_at_byte_none in E. contradiction.
Qed.

Lemma unescape_loop_stuck r out fuel :
  (exists r', r = lit "2C" ++ r' \/ r = lit "3D" ++ r') ->
  unescape_loop fuel out (equals :: r) = None.
Proof.
  intros [r' Hr]. revert out. induction fuel as [|f IH]; intros out; [reflexivity|].
  destruct Hr as [-> | ->]; cbn; apply IH.
Qed.

Lemma flat_app x y : flat_map escape_char (x ++ y) = flat_map escape_char x ++ flat_map escape_char y.
Proof. induction x as [|b x IH]; [reflexivity|]. cbn. rewrite IH, app_assoc. reflexivity. Qed.

Lemma flat_free x : ~ In comma x -> ~ In equals x -> flat_map escape_char x = x.
Proof.
  intros H1 H2. apply flat_plain. apply Bool.orb_false_iff. split; apply contains_not_In; assumption.
Qed.

(** The first special character of a name. *)
Lemma first_special (x : list ascii) : (In comma x \/ In equals x) -> exists (a : list ascii) (c : ascii) (b : list ascii),
  x = a ++ c :: b /\ ~ In comma a /\ ~ In equals a /\ (c = comma \/ c = equals).
Proof.
  induction x as [|y x IH]; intros H; [destruct H as [[]|[]]|].
  destruct (ascii_dec y comma) as [->|H1]; [exists [], comma, x; simpl; auto|].
  destruct (ascii_dec y equals) as [->|H2]; [exists [], equals, x; simpl; auto|].
  destruct IH as [a [c [b [-> [Ha [Hb Hc]]]]]].
  { destruct H as [[H|H]|[H|H]]; auto; congruence. }
  exists (y :: a), c, b. split; [reflexivity|]. split; [|split; [|exact Hc]]; intros [?|?]; auto.
Qed.

Lemma utf8_flat_len n : forall x, length x <= n -> utf8_valid x = true ->
  utf8_valid (flat_map escape_char x) = true.
Proof.
  induction n as [|n IH]; intros x Hn H; [destruct x; [reflexivity|simpl in Hn; lia]|].
  destruct (contains comma x || contains equals x) eqn:E.
  - destruct (first_special x) as [a [c [b [-> [Ha [Hb Hc]]]]]].
    { apply Bool.orb_true_iff in E. destruct E as [E|E]; apply contains_In in E; auto. }
    rewrite flat_app, (flat_free a) by assumption.
    assert (Hi : in_range 0 127 c = true) by (destruct Hc as [-> | ->]; reflexivity).
    destruct (utf8_cut _ _ _ Hi H) as [H1 H2].
    rewrite utf8_app by exact H1. cbn [flat_map].
    rewrite utf8_app by (destruct Hc as [-> | ->]; reflexivity).
    apply IH; [|exact H2]. rewrite app_length in Hn. simpl in Hn. unfold byte in *. lia.
  - rewrite flat_plain by exact E. exact H.
Qed.

Lemma escape_utf8 x y : escape x = Ok y -> utf8_valid x = true -> utf8_valid y = true.
Proof.
  rewrite escape_flat. intros [_ [_ ->]]. apply (utf8_flat_len (length x)). lia.
Qed.

Lemma find_none {A} (p : A -> bool) l : (forall x, In x l -> p x = false) -> find p l = None.
Proof.
  induction l as [|x l IH]; intros H; [reflexivity|]. cbn. rewrite H by (left; reflexivity).
  apply IH. intros y Hy. apply H. right. exact Hy.
Qed.

Lemma flat_no_zero x : ~ In zero x -> ~ In zero (flat_map escape_char x).
Proof.
  intros Hx H. apply in_flat_map in H. destruct H as [b [Hb H]].
  destruct (escape_char_cases b) as [[_ E]|[[_ E]|[_ [_ E]]]]; rewrite E in H; cbn in H.
  - intuition discriminate.
  - intuition discriminate.
  - destruct H as [->|[]]. contradiction.
Qed.

Lemma unescape_nonempty x fuel : x <> [] -> ~ In comma x -> ~ In zero x ->
  unescape fuel x =
  match split_at_byte equals x with
  | Some (good, rest) =>
      if utf8_valid good then unescape_loop fuel good rest else Some (Err SnInvalidUtf8)
  | None => if utf8_valid x then Some (Ok x) else Some (Err SnInvalidUtf8)
  end.
Proof.
  intros H H1 H2. unfold unescape. destruct x as [|b x]; [congruence|].
  rewrite find_none; [reflexivity|]. intros d Hd. apply Bool.orb_false_iff.
  split; apply beq_neq; intros ->; auto.
Qed.

(** On the escaped form of a name with a special character, unescape loops forever. *)
Theorem unescape_diverges x y : utf8_valid x = true -> escape x = Ok y ->
  In ","%char x \/ In "="%char x -> forall fuel, unescape fuel y = None.
Proof.
  intros Hu H Hs fuel. apply escape_flat in H. destruct H as [Hn [Hz ->]].
  destruct (first_special x Hs) as [a [c [b [-> [Ha [Hb Hc]]]]]].
  rewrite unescape_nonempty;
    [|apply flat_nonempty, Hn|apply flat_no_comma|apply flat_no_zero, Hz].
  rewrite flat_app, (flat_free a) by assumption.
  assert (Hr : exists r : list ascii, flat_map escape_char (c :: b) = equals :: r /\
     exists r', r = lit "2C" ++ r' \/ r = lit "3D" ++ r').
  { cbn [flat_map]. destruct Hc as [-> | ->]; eexists; (split; [reflexivity|]); exists (flat_map escape_char b); auto. }
  destruct Hr as [r [-> Hr]].
  rewrite (proj2 (split_at_byte_some equals (a ++ equals :: r) a (equals :: r))) by eauto.
  assert (Hi : in_range 0 127 c = true) by (destruct Hc as [-> | ->]; reflexivity).
  destruct (utf8_cut _ _ _ Hi Hu) as [-> _].
  apply unescape_loop_stuck. exact Hr.
Qed.

Theorem unescape_plain x y fuel : utf8_valid x = true -> escape x = Ok y ->
  free ","%char x -> free "="%char x -> unescape fuel y = Some (Ok x).
Proof.
  intros Hu H H1 H2. apply escape_flat in H. destruct H as [Hn [Hz ->]].
  rewrite flat_free by assumption. rewrite unescape_nonempty by assumption.
  rewrite (proj2 (split_at_byte_none equals x)) by exact H2.
  rewrite Hu. reflexivity.
Qed.

(** It panics on a truncated sequence. *)
Theorem unescape_panics a t fuel : utf8_valid a = true ->
  free "="%char a -> free ","%char (a ++ t) -> free (chr 0) (a ++ t) -> length t <= 1 ->
  unescape (S fuel) (a ++ "="%char :: t) = Some Panic.
Proof.
  intros Hu Ha H1 H0 Ht.
  rewrite unescape_nonempty; [|destruct a; discriminate| |].
  2:{ rewrite in_app_iff. intros [H|[H|H]]; [|discriminate H|]; apply H1, in_app_iff; auto. }
  2:{ rewrite in_app_iff. intros [H|[H|H]]; [|discriminate H|]; apply H0, in_app_iff; auto. }
  rewrite (proj2 (split_at_byte_some equals (a ++ "="%char :: t) a (equals :: t)))
    by (split; [exact Ha|split; [reflexivity|eauto]]).
  cbv iota beta. rewrite Hu. cbn [unescape_loop].
  change (split_at_byte equals (equals :: t)) with (Some (@nil ascii, equals :: t)).
  cbn [utf8_valid]. destruct t as [|x [|z t]]; [reflexivity|reflexivity|simpl in Ht; lia].
Qed.

(** * Attributes *)

Lemma expect_attr_ok {A} tag next (k : bytes -> res parseerr A) r :
  length tag = 2 -> expect_attr tag next k = Ok r <-> exists v, next = tag ++ v /\ k v = Ok r.
Proof.
  intros Ht. destruct tag as [|a [|b [|? ?]]]; try discriminate. clear Ht.
  unfold expect_attr. destruct next as [|x [|y next]]; cbn [slice2 rbind].
  - split; [discriminate|]. intros [v [H _]]; discriminate.
  - split; [discriminate|]. intros [v [H _]]; discriminate.
  - cbn [fst snd]. destruct (bytes_eqb_spec [x; y] [a; b]) as [E|E].
    + injection E as -> ->. split; [intros H; exists next; auto|].
      intros [v [H H2]]. injection H as ->. exact H2.
    + split; [discriminate|]. intros [v [H _]]. injection H as -> -> _. congruence.
Qed.

Lemma utf8_p_ok {A} b (k : bytes -> res parseerr A) r :
  utf8_p b k = Ok r <-> utf8_valid b = true /\ k b = Ok r.
Proof.
  unfold utf8_p, from_utf8. destruct (utf8_valid b); split; [auto|intros [_ H]; exact H|discriminate|].
  intros [H _]; discriminate.
Qed.

Lemma next_part_ok {A} e it (k : bytes -> list bytes -> res parseerr A) r :
  next_part e it k = Ok r <-> exists p q, it = p :: q /\ k p q = Ok r.
Proof.
  destruct it as [|p q]; cbn; split.
  - discriminate.
  - intros [p [q [H _]]]. discriminate.
  - eauto.
  - intros [p' [q' [H H2]]]. injection H as -> ->. exact H2.
Qed.

Lemma rbind_ok {E A B} (x : res E A) (f : A -> res E B) r :
  rbind x f = Ok r <-> exists a, x = Ok a /\ f a = Ok r.
Proof.
  destruct x; cbn; split; try discriminate; try (intros [a0 [H _]]; discriminate).
  - eauto.
  - intros [a0 [H H2]]. injection H as ->. exact H2.
Qed.

Lemma slice2_ok {E} x h t : @slice2 E x = Ok (h, t) <-> x = h ++ t /\ length h = 2.
Proof.
  destruct x as [|a [|b x]]; cbn; split; try discriminate.
  - intros [H1 H2]. destruct h as [|? [|? ?]]; discriminate.
  - intros [H1 H2]. destruct h as [|? [|? ?]]; discriminate.
  - intros H. injection H as <- <-. auto.
  - intros [H1 H2]. destruct h as [|h0 [|h1 [|? ?]]]; try discriminate.
    injection H1 as -> -> ->. reflexivity.
Qed.

(** * Flags *)

Lemma forallb_find {A} (p : A -> bool) l : find (fun b => negb (p b)) l = None <-> forallb p l = true.
Proof.
  induction l as [|x l IH]; cbn; [tauto|]. destruct (p x); cbn; [exact IH|]. split; discriminate.
Qed.

Lemma cbname_char_rfc b : cbname_char b = rfc_cbname_char b.
Proof. destruct b as [[|] [|] [|] [|] [|] [|] [|] [|]]; vm_compute; reflexivity. Qed.
Lemma cbname_rfc name : forallb cbname_char name = forallb rfc_cbname_char name.
Proof. induction name as [|c l IH]; [reflexivity|]. cbn [forallb]. rewrite cbname_char_rfc, IH. reflexivity. Qed.

Lemma cbflag_parse_ok x f : cbflag_parse x = Ok f <-> x = flag_text f /\ legal_flag f.
Proof.
  unfold cbflag_parse. destruct (bytes_eqb_spec x (lit "n")) as [->|Hn].
  { split; [intros H; injection H as <-; split; [reflexivity|exact I]|].
    intros [H1 H2]. destruct f; try discriminate H1. reflexivity. }
  destruct (bytes_eqb_spec x (lit "y")) as [->|Hy].
  { split; [intros H; injection H as <-; split; [reflexivity|exact I]|].
    intros [H1 H2]. destruct f; try discriminate H1. reflexivity. }
  assert (Hf : forall f', x = flag_text f' -> exists name, f' = CbUsed name /\ x = lit "p=" ++ name).
  { intros [| |name] ->; [exfalso; apply Hy; reflexivity|exfalso; apply Hn; reflexivity|eauto]. }
  destruct x as [|p [|q [|a x]]].
  - split; [discriminate|]. intros [H1 H2]. destruct (Hf f H1) as [name [_ E]]. discriminate.
  - split; [discriminate|]. intros [H1 H2]. destruct (Hf f H1) as [name [_ E]]. discriminate.
  - split; [discriminate|]. intros [H1 H2]. destruct (Hf f H1) as [name [-> E]].
    injection E as _ _ <-. destruct H2 as [H2 _]. congruence.
  - destruct (beq p "p"%char && beq q "="%char) eqn:E.
    + apply Bool.andb_true_iff in E. destruct E as [E1 E2]. apply beq_eq in E1, E2. subst p q.
      cbn [skipn]. destruct (find _ _) eqn:Ef.
      * split; [discriminate|]. intros [H1 H2]. destruct (Hf f H1) as [name [-> E]].
        injection E as <-. destruct H2 as [_ H2]. rewrite <- cbname_rfc in H2. apply forallb_find in H2. congruence.
      * apply forallb_find in Ef. split.
        -- intros H. injection H as <-. split; [reflexivity|]. split; [discriminate|rewrite <- cbname_rfc; exact Ef].
        -- intros [H1 H2]. destruct (Hf f H1) as [name [-> E]]. injection E as <-. reflexivity.
    + split; [discriminate|]. intros [H1 H2]. destruct (Hf f H1) as [name [-> E']].
      injection E' as -> -> _. discriminate E.
Qed.

Lemma cbname_no_comma name : forallb rfc_cbname_char name = true -> free ","%char name.
Proof.
  intros H Hi. rewrite forallb_forall in H. apply H in Hi. discriminate.
Qed.

Lemma flag_no_comma f : legal_flag f -> free ","%char (flag_text f).
Proof.
  intros H. destruct f as [| |name]; unfold free; cbn.
  - intuition discriminate.
  - intuition discriminate.
  - destruct H as [_ H]. apply cbname_no_comma in H. intros [E|[E|E]]; [discriminate E|discriminate E|exact (H E)].
Qed.

Lemma nonce_legal x : forallb nonce_char x = true <-> legal_nonce x.
Proof.
  unfold legal_nonce. rewrite forallb_forall, Forall_forall. 
  assert (H : forall b, nonce_char b = true <-> (33 <= N_of_ascii b <= 126)%N /\ b <> ","%char).
  { intros b. unfold nonce_char, in_range. split.
    - intros H. split; [|intros ->; discriminate]. lia.
    - intros [H1 H2]. assert (N_of_ascii b <> 44%N); [|lia].
      intros E. apply H2. rewrite <- (ascii_N_embedding b), E. reflexivity. }
  split; intros Hx b Hb; apply H; auto.
Qed.

Lemma nonce_no_comma x : legal_nonce x -> free ","%char x.
Proof.
  intros H Hi. unfold legal_nonce in H. rewrite Forall_forall in H. apply H in Hi. apply Hi. reflexivity.
Qed.

(** * Joining and splitting at commas *)

Lemma csplit_app a r : free ","%char a -> split is_comma (a ++ ","%char :: r) = a :: split is_comma r.
Proof. apply split_app_sep. apply comma_sep. Qed.

Lemma csplit_one a : free ","%char a -> split is_comma a = [a].
Proof. apply split_nosep. apply comma_sep. Qed.

(** The pieces of a text, put back together. *)
Lemma csplit_cons m a rest : split is_comma m = a :: rest ->
  free ","%char a /\
  ((rest = [] /\ m = a) \/ (exists r, rest <> [] /\ m = a ++ ","%char :: r /\ split is_comma r = rest)).
Proof.
  intros H. apply (split_iff is_comma comma) in H; [|apply comma_sep].
  destruct H as [_ [Ha Hm]]. inversion Ha as [|? ? H1 H2]; subst. split; [exact H1|].
  destruct rest as [|b rest]; [left; auto|]. right. exists (join comma (b :: rest)).
  split; [discriminate|]. split; [reflexivity|].
  apply split_join; [apply comma_sep|discriminate|exact H2].
Qed.

Lemma csplit_tail m a : forall rest, split is_comma m = a :: rest ->
  exists t, m = a ++ t /\ tail_of_attributes t /\ free ","%char a.
Proof.
  intros rest H. apply csplit_cons in H. destruct H as [Ha [[-> ->]|[r [_ [-> _]]]]].
  - exists []. rewrite app_nil_r. unfold tail_of_attributes. auto.
  - exists (","%char :: r). unfold tail_of_attributes. eauto.
Qed.

Lemma csplit_with_tail a t : free ","%char a -> tail_of_attributes t ->
  exists rest, split is_comma (a ++ t) = a :: rest.
Proof.
  intros Ha [->|[r ->]].
  - rewrite app_nil_r, csplit_one by exact Ha. eauto.
  - rewrite csplit_app by exact Ha. eauto.
Qed.

(** * Message parsers *)

(** What may stand for the authzid: two arbitrary bytes instead of "a=". *)
Definition authzid_part (two : bytes) (z : option bytes) : bytes :=
  match z with Some z => two ++ z | None => [] end.

Lemma lit_app_sep tag x y : tag ++ x ++ ","%char :: y = (tag ++ x) ++ ","%char :: y.
Proof. apply app_assoc. Qed.

Lemma free_attr (a b : ascii) x : a <> ","%char -> b <> ","%char -> free ","%char x ->
  free ","%char (a :: b :: x).
Proof. intros Ha Hb Hx [H|[H|H]]; auto. Qed.

Lemma free_attr_inv (a b : ascii) x : free ","%char (a :: b :: x) -> free ","%char x.
Proof. intros H Hi. apply H. right. right. exact Hi. Qed.

(** The pieces of a client-first message. *)
Lemma client_first_pieces f two z user nonce t :
  legal_flag f -> free ","%char (authzid_part two z) -> free ","%char user -> legal_nonce nonce ->
  tail_of_attributes t ->
  exists rest, split is_comma
    (flag_text f ++ lit "," ++ authzid_part two z ++ lit "," ++ first_bare user nonce ++ t)
  = flag_text f :: authzid_part two z :: (lit "n=" ++ user) :: (lit "r=" ++ nonce) :: rest.
Proof.
  intros Hf Hz Hu Hn Ht. change (lit "," ++ ?x) with (","%char :: x).
  rewrite csplit_app by (apply flag_no_comma; exact Hf).
  cbn [lit list_ascii_of_string app]. rewrite csplit_app by exact Hz.
  unfold first_bare. change (lit ",r=") with (","%char :: lit "r="). rewrite <- !app_assoc.
  cbn [app]. rewrite lit_app_sep.
  rewrite csplit_app by (apply free_attr; [discriminate|discriminate|exact Hu]).
  rewrite app_assoc.
  destruct (csplit_with_tail (lit "r=" ++ nonce) t) as [rest E].
  - apply free_attr; [discriminate|discriminate|apply nonce_no_comma; exact Hn].
  - exact Ht.
  - exists rest. rewrite E. reflexivity.
Qed.

Lemma client_first_parse_text f two z user nonce t :
  legal_flag f -> free ","%char (authzid_part two z) -> length two = 2 ->
  match z with Some z => utf8_valid z = true | None => True end ->
  free ","%char user -> utf8_valid user = true -> legal_nonce nonce -> tail_of_attributes t ->
  client_first_parse
    (flag_text f ++ lit "," ++ authzid_part two z ++ lit "," ++ first_bare user nonce ++ t)
  = Ok (mk_cf f z user nonce).
Proof.
  intros Hf Hz H2 Hzu Hu Huu Hn Ht.
  destruct (client_first_pieces f two z user nonce t) as [rest E]; try assumption.
  unfold client_first_parse. rewrite E. cbn [next_part].
  rewrite (proj2 (cbflag_parse_ok _ _)) by (split; [reflexivity|exact Hf]). cbn [rbind].
  assert (Ez : match authzid_part two z with
    | [] => Ok None
    | _ => rbind (slice2 (authzid_part two z)) (fun hr => utf8_p (snd hr) (fun s => Ok (Some s)))
    end = @Ok parseerr _ z).
  { destruct z as [z|]; [|reflexivity]. cbn [authzid_part].
    destruct two as [|a [|b [|? ?]]]; try discriminate. cbn [app slice2 rbind snd].
    apply utf8_p_ok. split; [exact Hzu|reflexivity]. }
  rewrite Ez. cbn [rbind].
  change (slice2 (lit "n=" ++ user)) with (@Ok parseerr _ (lit "n=", user)). cbn [rbind fst].
  change (bytes_eqb (lit "n=") (lit "m=")) with false. cbv iota.
  rewrite (proj2 (expect_attr_ok (lit "n=") (lit "n=" ++ user) _ (mk_cf f z user nonce) eq_refl));
    [reflexivity|].
  exists user. split; [reflexivity|]. apply utf8_p_ok. split; [exact Huu|].
  apply expect_attr_ok; [reflexivity|]. exists nonce. split; [reflexivity|].
  rewrite (proj2 (nonce_legal nonce)) by exact Hn. reflexivity.
Qed.

Lemma client_first_parse_inv m cf : client_first_parse m = Ok cf ->
  exists two t,
    m = flag_text (cf_cbflag cf) ++ lit "," ++ authzid_part two (cf_authzid cf) ++ lit "," ++
        first_bare (cf_username cf) (cf_nonce cf) ++ t /\
    legal_flag (cf_cbflag cf) /\ free ","%char (authzid_part two (cf_authzid cf)) /\
    length two = 2 /\
    match cf_authzid cf with Some z => utf8_valid z = true | None => True end /\
    free ","%char (cf_username cf) /\ utf8_valid (cf_username cf) = true /\
    legal_nonce (cf_nonce cf) /\ tail_of_attributes t.
Proof.
  unfold client_first_parse. intros H.
  apply next_part_ok in H. destruct H as [p1 [q1 [E1 H]]].
  apply rbind_ok in H. destruct H as [f [Ef H]]. apply cbflag_parse_ok in Ef. destruct Ef as [-> Hf].
  apply next_part_ok in H. destruct H as [za [q2 [-> H]]].
  apply rbind_ok in H. destruct H as [z [Ez H]].
  apply next_part_ok in H. destruct H as [p3 [q3 [-> H]]].
  apply rbind_ok in H. destruct H as [[h3 t3] [Es H]]. cbn [fst] in H.
  destruct (bytes_eqb h3 (lit "m=")); [discriminate|].
  apply expect_attr_ok in H; [|reflexivity]. destruct H as [user [-> H]]. clear Es.
  apply utf8_p_ok in H. destruct H as [Hu H].
  apply next_part_ok in H. destruct H as [p4 [q4 [-> H]]].
  apply expect_attr_ok in H; [|reflexivity]. destruct H as [nonce [-> H]].
  destruct (forallb nonce_char nonce) eqn:En; [|discriminate]. injection H as <-.
  apply nonce_legal in En. cbn [cf_cbflag cf_authzid cf_username cf_nonce].
  apply csplit_cons in E1. destruct E1 as [_ [[H _]|[r1 [_ [-> E1]]]]]; [discriminate|].
  apply csplit_cons in E1. destruct E1 as [Hza [[H _]|[r2 [_ [-> E2]]]]]; [discriminate|].
  apply csplit_cons in E2. destruct E2 as [Hus [[H _]|[r3 [_ [-> E3]]]]]; [discriminate|].
  apply csplit_tail in E3. destruct E3 as [t [-> [Ht _]]].
  assert (Hz : exists two, za = authzid_part two z /\ length two = 2 /\
     match z with Some z => utf8_valid z = true | None => True end).
  { destruct za as [|a za].
    - injection Ez as <-. exists (lit "a="). auto.
    - apply rbind_ok in Ez. destruct Ez as [[h t0] [Es Ez]]. apply slice2_ok in Es.
      apply utf8_p_ok in Ez. cbn [snd] in Ez. destruct Ez as [Hv Ez]. injection Ez as <-.
      exists h. destruct Es as [Es Hl]. cbn [authzid_part]. auto. }
  destruct Hz as [two [-> [H2 Hz]]].
  exists two, t. split.
  { unfold first_bare. change (lit ",r=") with (","%char :: lit "r=").
    change (lit "," ++ ?x) with (","%char :: x). rewrite <- !app_assoc.
    cbn [lit list_ascii_of_string app]. reflexivity. }
  split; [exact Hf|]. split; [exact Hza|]. split; [exact H2|]. split; [exact Hz|].
  split; [apply (free_attr_inv _ _ _ Hus)|]. auto.
Qed.

(** Server-first messages. *)
Theorem server_first_parse_exact m nonce salt iters :
  server_first_parse m = Ok (mk_sf nonce salt iters) <->
  m = server_first_text nonce salt iters /\
  free ","%char nonce /\ free ","%char salt /\ free ","%char iters.
Proof.
  split.
  - unfold server_first_parse. intros H.
    apply next_part_ok in H. destruct H as [p1 [q1 [E1 H]]].
    destruct (Nat.ltb (length p1) 2); [discriminate|].
    apply rbind_ok in H. destruct H as [[h t] [_ H]]. cbn [fst] in H.
    destruct (bytes_eqb h (lit "m=")); [discriminate|].
    apply expect_attr_ok in H; [|reflexivity]. destruct H as [n [-> H]].
    apply next_part_ok in H. destruct H as [p2 [q2 [-> H]]].
    apply expect_attr_ok in H; [|reflexivity]. destruct H as [s [-> H]].
    apply next_part_ok in H. destruct H as [p3 [q3 [-> H]]].
    apply expect_attr_ok in H; [|reflexivity]. destruct H as [i [-> H]].
    destruct q3 as [|p4 q3]; [|destruct p4; discriminate]. injection H as -> -> ->.
    apply csplit_cons in E1. destruct E1 as [H1 [[H _]|[r1 [_ [-> E1]]]]]; [discriminate|].
    apply csplit_cons in E1. destruct E1 as [H2 [[H _]|[r2 [_ [-> E2]]]]]; [discriminate|].
    apply csplit_cons in E2. destruct E2 as [H3 [[_ ->]|[r3 [H _]]]]; [|congruence].
    split; [|split; [exact (free_attr_inv _ _ _ H1)|split; [exact (free_attr_inv _ _ _ H2)|exact (free_attr_inv _ _ _ H3)]]].
    unfold server_first_text. change (lit ",s=") with (","%char :: lit "s=").
    change (lit ",i=") with (","%char :: lit "i="). rewrite <- !app_assoc. reflexivity.
  - intros [-> [Hn [Hs Hi]]]. unfold server_first_parse, server_first_text.
    change (lit ",s=") with (","%char :: lit "s="). change (lit ",i=") with (","%char :: lit "i=").
    cbn [app]. rewrite lit_app_sep.
    rewrite csplit_app by (apply free_attr; [discriminate|discriminate|exact Hn]).
    rewrite lit_app_sep.
    rewrite csplit_app by (apply free_attr; [discriminate|discriminate|exact Hs]).
    rewrite csplit_one by (apply free_attr; [discriminate|discriminate|exact Hi]).
    reflexivity.
Qed.

(** Client-final messages. *)
Lemma find_proof_inv it : forall p rest, find_proof it = Ok (p, rest) ->
  exists exts, it = exts ++ (lit "p=" ++ p) :: rest /\
    Forall (fun x => 2 <= length x /\ firstn 2 x <> lit "p=" /\ firstn 2 x <> lit "m=") exts.
Proof.
  induction it as [|x it IH]; intros p rest H; [discriminate|]. cbn [find_proof] in H.
  destruct x as [|a [|b x]]; try discriminate. cbn [slice2] in H.
  destruct (bytes_eqb_spec [a; b] (lit "p=")) as [E|E].
  { injection H as <- <-. injection E as -> ->. exists []. split; [reflexivity|constructor]. }
  destruct (bytes_eqb_spec [a; b] (lit "m=")) as [E2|E2]; [discriminate|].
  apply IH in H. destruct H as [exts [-> He]]. exists ((a :: b :: x) :: exts).
  split; [reflexivity|]. constructor; [|exact He]. split; [simpl; lia|]. split; assumption.
Qed.

Lemma find_proof_skip exts p rest :
  Forall (fun x => 2 <= length x /\ firstn 2 x <> lit "p=" /\ firstn 2 x <> lit "m=") exts ->
  find_proof (exts ++ (lit "p=" ++ p) :: rest) = Ok (p, rest).
Proof.
  induction 1 as [|x exts [H1 [H2 H3]] He IH]; [reflexivity|]. cbn [app find_proof].
  destruct x as [|a [|b x]]; try (simpl in H1; lia). cbn [slice2].
  destruct (bytes_eqb_spec [a; b] (lit "p=")) as [E|E]; [exfalso; apply H2; exact E|].
  destruct (bytes_eqb_spec [a; b] (lit "m=")) as [E2|E2]; [exfalso; apply H3; exact E2|].
  exact IH.
Qed.

Lemma split_extensions exts r : Forall extension exts ->
  forall a, free ","%char a ->
  split is_comma (a ++ extensions_text exts ++ ","%char :: r) = a :: exts ++ split is_comma r.
Proof.
  induction 1 as [|x exts Hx He IH]; intros a Ha.
  - apply csplit_app. exact Ha.
  - unfold extensions_text. cbn [map concat app]. rewrite csplit_app by exact Ha.
    rewrite <- app_assoc. fold (extensions_text exts). rewrite IH by apply Hx. reflexivity.
Qed.

(** The pieces of a text that continues. *)
Lemma unsplit_extensions exts : forall m p, split is_comma m = exts ++ [p] ->
  exists r, m = r ++ p /\ forall a, a ++ ","%char :: m = a ++ extensions_text exts ++ ","%char :: p.
Proof.
  induction exts as [|x exts IH]; intros m p H.
  - apply csplit_cons in H. destruct H as [_ [[_ ->]|[r [H _]]]]; [|congruence].
    exists []. split; reflexivity.
  - cbn [app] in H. apply csplit_cons in H.
    destruct H as [_ [[H _]|[r [_ [-> E]]]]]; [destruct exts; discriminate|].
    apply IH in E. destruct E as [r' [Er E]]. exists (x ++ ","%char :: r'). split.
    { rewrite Er at 1. rewrite <- app_assoc. reflexivity. }
    intros a. rewrite E. unfold extensions_text. cbn [map concat app].
    rewrite <- app_assoc. reflexivity.
Qed.

Theorem client_final_parse_exact m cb nonce proof :
  client_final_parse m = Ok (mk_cl cb nonce proof) <->
  exists exts,
    m = final_bare cb nonce ++ extensions_text exts ++ lit ",p=" ++ proof /\
    free ","%char cb /\ free ","%char nonce /\ free ","%char proof /\ Forall extension exts.
Proof.
  split.
  - unfold client_final_parse. intros H.
    apply next_part_ok in H. destruct H as [p1 [q1 [E1 H]]].
    apply expect_attr_ok in H; [|reflexivity]. destruct H as [c [-> H]].
    apply next_part_ok in H. destruct H as [p2 [q2 [-> H]]].
    apply expect_attr_ok in H; [|reflexivity]. destruct H as [n [-> H]].
    apply rbind_ok in H. destruct H as [[p rest] [Ep H]]. cbn [fst snd] in H.
    destruct rest as [|x rest]; [|destruct x; discriminate]. injection H as -> -> ->.
    apply find_proof_inv in Ep. destruct Ep as [exts [-> He]].
    exists exts.
    assert (Hfree : Forall (fun x => ~ In comma x) (split is_comma m)) by (apply split_pieces, comma_sep).
    rewrite E1 in Hfree. inversion Hfree as [|? ? H1 Hf1]; subst.
    inversion Hf1 as [|? ? H2 Hf2]; subst. apply Forall_app in Hf2. destruct Hf2 as [Hf3 Hf4].
    inversion Hf4 as [|? ? H3 _]; subst.
    apply csplit_cons in E1. destruct E1 as [_ [[H _]|[r1 [_ [-> E1]]]]]; [discriminate|].
    apply csplit_cons in E1.
    destruct E1 as [_ [[H _]|[r2 [_ [-> E2]]]]]; [destruct exts; discriminate|].
    apply unsplit_extensions in E2. destruct E2 as [_ [_ E2]]. rewrite E2.
    split; [|split; [|split; [|split]]].
    + unfold final_bare. change (lit ",r=") with (","%char :: lit "r=").
      change (lit ",p=") with (","%char :: lit "p="). rewrite <- !app_assoc. reflexivity.
    + apply (free_attr_inv _ _ _ H1).
    + apply (free_attr_inv _ _ _ H2).
    + apply (free_attr_inv _ _ _ H3).
    + rewrite Forall_forall in *. intros x Hx. specialize (He x Hx). specialize (Hf3 x Hx).
      unfold extension. tauto.
  - intros [exts [-> [Hc [Hn [Hp He]]]]]. unfold client_final_parse.
    replace (split is_comma _) with
      ((lit "c=" ++ cb) :: (lit "r=" ++ nonce) :: exts ++ [lit "p=" ++ proof]).
    2:{ symmetry.
        replace (final_bare cb nonce ++ extensions_text exts ++ lit ",p=" ++ proof) with
          ((lit "c=" ++ cb) ++ ","%char :: (lit "r=" ++ nonce) ++ extensions_text exts ++
           ","%char :: (lit "p=" ++ proof))
          by (unfold final_bare; rewrite <- !app_assoc; reflexivity).
        rewrite csplit_app by (apply free_attr; [discriminate|discriminate|exact Hc]).
        rewrite split_extensions;
          [|exact He|apply free_attr; [discriminate|discriminate|exact Hn]].
        rewrite csplit_one by (apply free_attr; [discriminate|discriminate|exact Hp]).
        reflexivity. }
    cbn [next_part]. rewrite (proj2 (expect_attr_ok (lit "c=") (lit "c=" ++ cb) _ (mk_cl cb nonce proof) eq_refl));
      [reflexivity|].
    exists cb. split; [reflexivity|]. cbn [next_part].
    apply expect_attr_ok; [reflexivity|]. exists nonce. split; [reflexivity|].
    rewrite find_proof_skip; [reflexivity|].
    rewrite Forall_forall in *. intros x Hx. specialize (He x Hx). unfold extension in He. tauto.
Qed.

(** Server-final messages. *)
Theorem server_final_parse_verifier v : server_final_parse (lit "v=" ++ v) = Ok (SfVerifier v).
Proof. reflexivity. Qed.

Theorem server_final_parse_error x : server_final_parse (lit "e=" ++ srverr_bytes x) = Ok (SfError x).
Proof. destruct x; reflexivity. Qed.

Theorem server_final_parse_inv m x : server_final_parse m = Ok x ->
  (exists v, x = SfVerifier v /\ m = lit "v=" ++ v) \/
  (exists v, x = SfError (srverr_parse v) /\ m = lit "e=" ++ v).
Proof.
  unfold server_final_parse. intros H. apply rbind_ok in H. destruct H as [[h t] [Es H]].
  apply slice2_ok in Es. destruct Es as [-> Hl]. cbn [fst snd] in H.
  destruct (bytes_eqb_spec h (lit "v=")) as [->|E1]; [injection H as <-; left; eauto|].
  destruct (bytes_eqb_spec h (lit "e=")) as [->|E2]; [injection H as <-; right; eauto|].
  destruct h as [|a h]; [discriminate Hl|discriminate].
Qed.

(** * AuthMessage *)

Lemma auth_message_rfc user cn sn salt iters cb :
  auth_message user cn sn salt iters cb =
  rfc_auth_message (first_bare user cn) (server_first_text (cn ++ sn) salt iters)
                   (final_bare cb (cn ++ sn)).
Proof.
  unfold auth_message, rfc_auth_message, first_bare, server_first_text, final_bare.
  rewrite <- !app_assoc. reflexivity.
Qed.

Lemma attr_inj (a b a' b' : ascii) x y x' y' :
  free ","%char x -> free ","%char x' ->
  a <> ","%char -> b <> ","%char -> a' <> ","%char -> b' <> ","%char ->
  a :: b :: x ++ ","%char :: y = a' :: b' :: x' ++ ","%char :: y' -> x = x' /\ y = y'.
Proof.
  intros Hx Hx' _ _ _ _ H. injection H as _ _ H. apply app_sep_inj in H; [exact H|exact Hx|exact Hx'].
Qed.

Theorem rfc_auth_message_inj u n fn s i cb fn2 u' n' fn' s' i' cb' fn2' :
  Forall (free ","%char) [u; n; fn; s; i; cb; fn2; u'; n'; fn'; s'; i'; cb'; fn2'] ->
  rfc_auth_message (first_bare u n) (server_first_text fn s i) (final_bare cb fn2) =
  rfc_auth_message (first_bare u' n') (server_first_text fn' s' i') (final_bare cb' fn2') ->
  u = u' /\ n = n' /\ fn = fn' /\ s = s' /\ i = i' /\ cb = cb' /\ fn2 = fn2'.
Proof.
  intros Hf H. rewrite Forall_forall in Hf.
  assert (K : forall x, In x [u; n; fn; s; i; cb; fn2; u'; n'; fn'; s'; i'; cb'; fn2'] -> ~ In ","%char x) by exact Hf.
  unfold rfc_auth_message, first_bare, server_first_text, final_bare in H.
  rewrite <- !app_assoc in H. cbn [lit list_ascii_of_string app] in H.
  injection H as H. apply app_sep_inj in H; [|apply K; simpl; auto 20..]. destruct H as [-> H].
  injection H as H. apply app_sep_inj in H; [|apply K; simpl; auto 20..]. destruct H as [-> H].
  injection H as H. apply app_sep_inj in H; [|apply K; simpl; auto 20..]. destruct H as [-> H].
  injection H as H. apply app_sep_inj in H; [|apply K; simpl; auto 20..]. destruct H as [-> H].
  injection H as H. apply app_sep_inj in H; [|apply K; simpl; auto 20..]. destruct H as [-> H].
  injection H as H. apply app_sep_inj in H; [|apply K; simpl; auto 20..]. destruct H as [-> H].
  injection H as H. auto 10.
Qed.

Theorem auth_message_inj u n sn s i cb u' n' sn' s' i' cb' :
  Forall (free ","%char) [u; n; sn; s; i; cb; u'; n'; sn'; s'; i'; cb'] ->
  auth_message u n sn s i cb = auth_message u' n' sn' s' i' cb' ->
  u = u' /\ n = n' /\ sn = sn' /\ s = s' /\ i = i' /\ cb = cb'.
Proof.
  intros F E. rewrite !auth_message_rfc in E.
  repeat (apply Forall_cons_iff in F; destruct F as [? F]).
  assert (Hf : forall a b, free ","%char a -> free ","%char b -> free ","%char (a ++ b)).
  { intros a b Ha Hb Hi. apply in_app_or in Hi. destruct Hi; auto. }
  apply rfc_auth_message_inj in E.
  - destruct E as [-> [-> [E [-> [-> [-> _]]]]]]. apply app_inv_head in E. auto 10.
  - repeat constructor; auto.
Qed.
