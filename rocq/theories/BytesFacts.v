(** Lemmas about the byte string functions. *)
From Coq Require Import Lia.
From Verif Require Import Bytes Utf8.

Lemma beq_eq a b : beq a b = true <-> a = b.
Proof. apply Ascii.eqb_eq. Qed.
Lemma beq_refl a : beq a a = true.
Proof. apply beq_eq; reflexivity. Qed.
Lemma beq_neq a b : beq a b = false <-> a <> b.
Proof. apply Ascii.eqb_neq. Qed.
Lemma beq_sym a b : beq a b = beq b a.
Proof. apply Ascii.eqb_sym. Qed.

Lemma bytes_eqb_eq a b : bytes_eqb a b = true <-> a = b.
Proof.
  revert b; induction a as [|x a IH]; intros [|y b]; simpl; try (split; [discriminate|discriminate] || tauto).
  rewrite andb_true_iff, beq_eq, IH. split; [intros [-> ->]; reflexivity|].
  intros H; inversion H; auto.
Qed.
Lemma bytes_eqb_refl a : bytes_eqb a a = true.
Proof. apply bytes_eqb_eq; reflexivity. Qed.
Lemma bytes_eqb_neq a b : bytes_eqb a b = false <-> a <> b.
Proof.
  rewrite <- bytes_eqb_eq. destruct (bytes_eqb a b); split; congruence.
Qed.
Lemma bytes_eqb_spec a b : reflect (a = b) (bytes_eqb a b).
Proof.
  destruct (bytes_eqb a b) eqn:H; constructor.
  - apply bytes_eqb_eq, H.
  - apply bytes_eqb_neq, H.
Qed.

Lemma contains_In c l : contains c l = true <-> In c l.
Proof.
  unfold contains. rewrite existsb_exists. split.
  - intros [x [Hx E]]. apply beq_eq in E. subst; assumption.
  - intros H; exists c; split; [assumption|apply beq_refl].
Qed.
Lemma contains_not_In c l : contains c l = false <-> ~ In c l.
Proof. rewrite <- contains_In. destruct (contains c l); split; congruence. Qed.

Lemma contains_app c a b : contains c (a ++ b) = contains c a || contains c b.
Proof. apply existsb_app. Qed.

(** * split and join *)

Definition sep_is (p : byte -> bool) (c : byte) : Prop := forall x, p x = true <-> x = c.

Lemma sep_is_beq c : sep_is (fun b => beq b c) c.
Proof. intros x; apply beq_eq. Qed.

(** Pieces joined with one separator byte in between. *)
Fixpoint join (c : byte) (ps : list bytes) : bytes :=
  match ps with
  | [] => []
  | [p] => p
  | p :: r => p ++ c :: join c r
  end.

Lemma join_cons c p q r : join c (p :: q :: r) = p ++ c :: join c (q :: r).
Proof. reflexivity. Qed.

Lemma split_nonempty p l : split p l <> [].
Proof.
  destruct l as [|x r]; simpl; [discriminate|].
  destruct (p x); [discriminate|]. destruct (split p r); discriminate.
Qed.

Lemma split_cons_sep p c x l : sep_is p c -> x = c -> split p (x :: l) = [] :: split p l.
Proof. intros H ->. simpl. replace (p c) with true; [reflexivity|]. symmetry; apply H; reflexivity. Qed.

Lemma split_nosep p c l : sep_is p c -> ~ In c l -> split p l = [l].
Proof.
  intros H. induction l as [|x r IH]; intros Hn; simpl; [reflexivity|].
  destruct (p x) eqn:E.
  - exfalso. apply H in E. apply Hn; left; auto.
  - rewrite IH; [reflexivity|]. intros Hi; apply Hn; right; assumption.
Qed.

Lemma split_app_sep p c a l :
  sep_is p c -> ~ In c a -> split p (a ++ c :: l) = a :: split p l.
Proof.
  intros H. induction a as [|x a IH]; intros Hn; simpl.
  - replace (p c) with true; [reflexivity|]. symmetry; apply H; reflexivity.
  - destruct (p x) eqn:E.
    + exfalso. apply H in E. apply Hn; left; auto.
    + rewrite IH; [reflexivity|]. intros Hi; apply Hn; right; assumption.
Qed.

Lemma split_join p c ps :
  sep_is p c -> ps <> [] -> Forall (fun x => ~ In c x) ps -> split p (join c ps) = ps.
Proof.
  intros H. induction ps as [|x ps IH]; intros Hne Hall; [congruence|].
  inversion Hall as [|? ? Hx Hps]; subst.
  destruct ps as [|y ps].
  - simpl. apply split_nosep with c; assumption.
  - rewrite join_cons. rewrite split_app_sep with (c := c); auto.
    f_equal. apply IH; [discriminate|assumption].
Qed.

Lemma join_split p c l : sep_is p c -> join c (split p l) = l.
Proof.
  intros H. induction l as [|x r IH]; [reflexivity|].
  simpl. destruct (p x) eqn:E.
  - apply H in E; subst.
    destruct (split p r) as [|h t] eqn:Es; [exfalso; eapply split_nonempty; eauto|].
    rewrite join_cons. simpl. f_equal. exact IH.
  - destruct (split p r) as [|h t] eqn:Es; [exfalso; eapply split_nonempty; eauto|].
    destruct t as [|h2 t]; simpl in *; congruence.
Qed.

Lemma split_pieces p c l : sep_is p c -> Forall (fun x => ~ In c x) (split p l).
Proof.
  intros H. induction l as [|x r IH]; simpl.
  - constructor; [intros []|constructor].
  - destruct (p x) eqn:E.
    + constructor; [intros []|assumption].
    + destruct (split p r) as [|h t].
      * constructor; [|constructor]. intros [->|[]].
        assert (p c = true) by (apply H; reflexivity). congruence.
      * inversion IH as [|? ? Hh Ht]; subst. constructor; [|assumption].
        intros [->|Hi]; [|contradiction].
        assert (p c = true) by (apply H; reflexivity). congruence.
Qed.

(** [split p l = ps] says exactly that [ps] are the separator-free pieces of [l]. *)
Lemma split_iff p c l ps :
  sep_is p c ->
  (split p l = ps <-> ps <> [] /\ Forall (fun x => ~ In c x) ps /\ l = join c ps).
Proof.
  intros H; split.
  - intros <-. split; [apply split_nonempty|]. split; [apply split_pieces; assumption|].
    symmetry; apply join_split; assumption.
  - intros [Hne [Hall ->]]. apply split_join; assumption.
Qed.

Lemma join_inj c ps qs :
  ps <> [] -> qs <> [] ->
  Forall (fun x => ~ In c x) ps -> Forall (fun x => ~ In c x) qs ->
  join c ps = join c qs -> ps = qs.
Proof.
  intros H1 H2 F1 F2 E.
  rewrite <- (split_join (fun b => beq b c) c ps), <- (split_join (fun b => beq b c) c qs);
    auto using sep_is_beq.
  rewrite E; reflexivity.
Qed.

(** * prefixes and suffixes *)

Lemma strip_prefix_iff p l r : strip_prefix p l = Some r <-> l = p ++ r.
Proof.
  revert l; induction p as [|x p IH]; intros l; simpl.
  - split; congruence.
  - destruct l as [|y l]; [split; discriminate|].
    destruct (beq x y) eqn:E.
    + apply beq_eq in E; subst. rewrite IH. split; congruence.
    + apply beq_neq in E. split; congruence.
Qed.
Lemma strip_prefix_app p r : strip_prefix p (p ++ r) = Some r.
Proof. apply strip_prefix_iff; reflexivity. Qed.
Lemma strip_prefix_none p l : strip_prefix p l = None <-> forall r, l <> p ++ r.
Proof.
  destruct (strip_prefix p l) as [r|] eqn:E.
  - apply strip_prefix_iff in E. split; [discriminate|]. intros H; exfalso; eapply H; eauto.
  - split; [|reflexivity]. intros _ r ->. rewrite strip_prefix_app in E. discriminate.
Qed.

Lemma strip_suffix_iff s l r : strip_suffix s l = Some r <-> l = r ++ s.
Proof.
  unfold strip_suffix. destruct (strip_prefix (rev s) (rev l)) as [q|] eqn:E.
  - apply strip_prefix_iff in E.
    assert (El : l = rev q ++ s).
    { rewrite <- (rev_involutive l), E, rev_app_distr, rev_involutive. reflexivity. }
    rewrite El. split.
    + intros H; inversion H; reflexivity.
    + intros H. apply app_inv_tail in H. subst. reflexivity.
  - split; [discriminate|]. intros ->. rewrite rev_app_distr in E.
    rewrite strip_prefix_app in E. discriminate.
Qed.
Lemma strip_suffix_app s r : strip_suffix s (r ++ s) = Some r.
Proof. apply strip_suffix_iff; reflexivity. Qed.

Lemma split_at_byte_some c l a b :
  split_at_byte c l = Some (a, b) <-> ~ In c a /\ l = a ++ b /\ exists r, b = c :: r.
Proof.
  revert a b; induction l as [|x l IH]; intros a b; simpl.
  - split; [discriminate|]. intros [_ [H [r ->]]]. destruct a; discriminate.
  - destruct (beq c x) eqn:E.
    + apply beq_eq in E; subst x. split.
      * intros H; inversion H; subst. split; [intros []|]. split; [reflexivity|eauto].
      * intros [Hn [H [r ->]]]. destruct a as [|y a].
        -- simpl in H. rewrite H. reflexivity.
        -- simpl in H. inversion H; subst. exfalso; apply Hn; left; reflexivity.
    + apply beq_neq in E. destruct (split_at_byte c l) as [[a' b']|] eqn:Es.
      * split.
        -- intros H; inversion H; subst.
           destruct (proj1 (IH a' b) eq_refl) as [Hn [-> Hr]].
           split; [intros [Hc|Hi]; [congruence|contradiction]|]. split; [reflexivity|assumption].
        -- intros [Hn [H [r ->]]]. destruct a as [|y a]; simpl in H; inversion H; subst.
           ++ congruence.
           ++ assert (Hx : Some (a', b') = Some (a, c :: r)).
              { apply IH. split; [intros Hi; apply Hn; right; assumption|]. eauto. }
              inversion Hx; reflexivity.
      * split; [discriminate|]. intros [Hn [H [r ->]]].
        destruct a as [|y a]; simpl in H; inversion H; subst; [congruence|].
        assert (Hx : None = Some (a, c :: r)); [|discriminate Hx].
        apply IH. split; [intros Hi; apply Hn; right; assumption|]. eauto.
Qed.

Lemma split_at_byte_none c l : split_at_byte c l = None <-> ~ In c l.
Proof.
  induction l as [|x l IH]; simpl; [tauto|].
  destruct (beq c x) eqn:E.
  - apply beq_eq in E; subst. split; [discriminate|]. intros H; exfalso; apply H; left; reflexivity.
  - apply beq_neq in E. destruct (split_at_byte c l) as [[? ?]|].
    + split; [discriminate|]. intros H. assert (~ In c l) by tauto. apply IH in H0. discriminate.
    + split; [|reflexivity]. intros _ [->|Hi]; [congruence|]. apply (proj1 IH eq_refl Hi).
Qed.

Lemma app_sep_inj (c : byte) a b a' b' :
  ~ In c a -> ~ In c a' -> a ++ c :: b = a' ++ c :: b' -> a = a' /\ b = b'.
Proof.
  revert a'; induction a as [|x a IH]; intros [|y a'] H1 H2 E; simpl in E.
  - inversion E; auto.
  - inversion E; subst. exfalso; apply H2; left; reflexivity.
  - inversion E; subst. exfalso; apply H1; left; reflexivity.
  - inversion E; subst. destruct (IH a') as [-> ->]; auto.
    + intros Hi; apply H1; right; assumption.
    + intros Hi; apply H2; right; assumption.
Qed.

(** * xor *)

Lemma xorb8_cancel a b : xorb8 (xorb8 a b) b = a.
Proof.
  destruct a as [a0 a1 a2 a3 a4 a5 a6 a7], b as [b0 b1 b2 b3 b4 b5 b6 b7]; simpl.
  rewrite !xorb_assoc, !xorb_nilpotent, !xorb_false_r. reflexivity.
Qed.

Lemma xor_zip_length a b : length (xor_zip a b) = Nat.min (length a) (length b).
Proof. revert b; induction a as [|x a IH]; intros [|y b]; simpl; auto. Qed.

Lemma xor_zip_cancel a b : length a = length b -> xor_zip (xor_zip a b) b = a.
Proof.
  revert b; induction a as [|x a IH]; intros [|y b] H; simpl in *; try discriminate; auto.
  rewrite xorb8_cancel, IH; [reflexivity|lia].
Qed.

(** * UTF-8 *)

Lemma from_utf8_some l s : from_utf8 l = Some s <-> utf8_valid l = true /\ s = l.
Proof.
  unfold from_utf8. destruct (utf8_valid l); split.
  - intros H; inversion H; auto.
  - intros [_ ->]; reflexivity.
  - discriminate.
  - intros [H _]; discriminate.
Qed.
Lemma from_utf8_valid l : utf8_valid l = true -> from_utf8 l = Some l.
Proof. intros H; apply from_utf8_some; auto. Qed.
Lemma from_utf8_none l : from_utf8 l = None <-> utf8_valid l = false.
Proof. unfold from_utf8. destruct (utf8_valid l); split; congruence. Qed.

(** ASCII text is valid UTF-8. *)
Definition is_ascii (b : byte) : bool := in_range 0 127 b.
Lemma utf8_ascii l : forallb is_ascii l = true -> utf8_valid l = true.
Proof.
  induction l as [|x l IH]; simpl; [reflexivity|].
  rewrite andb_true_iff. intros [Hx Hl]. unfold is_ascii in Hx. rewrite Hx. auto.
Qed.
