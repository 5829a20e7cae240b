(** Proofs for C01, C15, C19, C22. *)
From Coq Require Import Lia ZArith ZifyN ZifyBool.
From Verif Require Import Bytes Types World Base64 Mechname CallbackSpec Spec_Basic
  BytesFacts Base64Facts WorldFacts.

(** * Mechanism names *)

Lemma mn_valid_iff b : mn_valid b = true <-> name_byte b.
Proof.
  unfold mn_valid, name_byte, in_range.
  assert (Hd : beq b "-"%char = true <-> N_of_ascii b = 45%N).
  { rewrite beq_eq. split; [intros ->; reflexivity|]. intros H.
    rewrite <- (ascii_N_embedding b), H. reflexivity. }
  assert (Hu : beq b "_"%char = true <-> N_of_ascii b = 95%N).
  { rewrite beq_eq. split; [intros ->; reflexivity|]. intros H.
    rewrite <- (ascii_N_embedding b), H. reflexivity. }
  rewrite !orb_true_iff, Hd, Hu. lia.
Qed.

Lemma mn_check_none i l : mn_check i l = None <-> Forall name_byte l.
Proof.
  revert i; induction l as [|b r IH]; intros i; simpl.
  - split; [constructor|reflexivity].
  - destruct (mn_valid b) eqn:E.
    + rewrite IH. apply mn_valid_iff in E. split; [constructor; assumption|].
      intros H; inversion H; assumption.
    + split; [discriminate|]. intros H; inversion H; subst.
      apply mn_valid_iff in H2. congruence.
Qed.

Lemma mn_check_some i l k b :
  mn_check i l = Some (MnInvalidChar k b) <-> i <= k /\ first_offender l (k - i) b.
Proof.
  revert i; induction l as [|x r IH]; intros i; simpl.
  - split; [discriminate|]. intros [_ [H _]]. destruct (k - i); discriminate.
  - destruct (mn_valid x) eqn:E.
    + rewrite IH. apply mn_valid_iff in E. unfold first_offender. split.
      * intros [Hk [Hn [Hb Hf]]]. split; [lia|].
        replace (k - i) with (S (k - S i)) by lia. split; [exact Hn|]. split; [assumption|].
        intros [|j] c Hj Hc; simpl in Hc; [inversion Hc; subst; assumption|].
        eapply Hf; [|exact Hc]. lia.
      * intros [Hk [Hn [Hb Hf]]]. destruct (k - i) as [|d] eqn:Ed.
        { simpl in Hn. inversion Hn; subst. contradiction. }
        split; [lia|]. replace (k - S i) with d by lia. split; [exact Hn|].
        split; [assumption|]. intros j c Hj Hc. apply (Hf (S j) c); [lia|exact Hc].
    + assert (Hx : ~ name_byte x) by (rewrite <- mn_valid_iff; congruence).
      unfold first_offender. split.
      * intros H; inversion H; subst. split; [lia|].
        replace (k - k) with 0 by lia. split; [reflexivity|]. split; [assumption|].
        intros; lia.
      * intros [Hk [Hn [Hb Hf]]]. destruct (k - i) as [|d] eqn:Ed.
        { simpl in Hn. inversion Hn; subst. f_equal. f_equal. lia. }
        exfalso. apply Hx. apply (Hf 0 x); [lia|reflexivity].
Qed.

Lemma mn_check_kind i l : mn_check i l <> Some MnTooShort.
Proof.
  revert i; induction l as [|x r IH]; intros i; simpl; [discriminate|].
  destruct (mn_valid x); [apply IH|discriminate].
Qed.

Lemma mechname_exact l :
  (forall r, mn_parse l = Ok r <-> r = l /\ l <> [] /\ Forall name_byte l) /\
  (mn_parse l = Err MnTooShort <-> l = []) /\
  (forall i b, mn_parse l = Err (MnInvalidChar i b) <-> first_offender l i b) /\
  mn_parse l <> Panic.
Proof.
  unfold mn_parse. destruct l as [|x l0].
  - split; [|split; [|split]].
    + intros r; split; [discriminate|]. intros [_ [H _]]; congruence.
    + tauto.
    + intros i b; split; [discriminate|]. intros [H _]. destruct i; discriminate.
    + discriminate.
  - remember (x :: l0) as l. destruct (mn_check 0 l) as [er|] eqn:E.
    + split; [|split; [|split]].
      * intros r; split; [discriminate|]. intros [_ [_ H]].
        apply (mn_check_none 0) in H. congruence.
      * split; [|subst; discriminate]. intros H; inversion H; subst.
        exfalso; eapply mn_check_kind; eauto.
      * intros i b. pose proof (mn_check_some 0 l i b) as Hs.
        rewrite Nat.sub_0_r in Hs. rewrite E in Hs.
        split.
        -- intros H; inversion H; subst. apply Hs; reflexivity.
        -- intros H. assert (H' : 0 <= i /\ first_offender l i b) by (split; [lia|exact H]).
           apply Hs in H'. congruence.
      * discriminate.
    + pose proof E as E0. apply mn_check_none in E. split; [|split; [|split]].
      * intros r; split.
        -- intros H; inversion H; subst. repeat split; auto; discriminate.
        -- intros [-> _]; reflexivity.
      * split; [discriminate|subst; discriminate].
      * intros i b; split; [discriminate|]. intros H.
        pose proof (mn_check_some 0 l i b) as Hs. rewrite Nat.sub_0_r in Hs.
        assert (H' : 0 <= i /\ first_offender l i b) by (split; [lia|exact H]).
        apply Hs in H'. congruence.
      * discriminate.
Qed.

(** * Contexts *)

Lemma get_ref_app a b q :
  get_ref (a ++ b) q = match get_ref a q with Some v => Some v | None => get_ref b q end.
Proof.
  induction a as [|[p v] a IH]; [reflexivity|]. simpl.
  destruct (castp v); [reflexivity|exact IH].
Qed.

Lemma get_ref_none c q : get_ref c q = None <-> Forall (fun x => projT1 x <> q) c.
Proof.
  induction c as [|[p v] c IH]; simpl; [split; [constructor|reflexivity]|].
  unfold castp at 1. destruct (prop_eq_dec p q) as [E|N].
  - split; [discriminate|]. intros H; inversion H; subst. simpl in *; congruence.
  - rewrite IH. split; [constructor; assumption|]. intros H; inversion H; assumption.
Qed.

Lemma get_ref_some c q v : get_ref c q = Some v <-> first_entry c q v.
Proof.
  split.
  - induction c as [|[p x] c IH]; simpl; [discriminate|].
    destruct (castp x) as [y|] eqn:E.
    + intros H; inversion H; subst. apply castp_some in E. destruct E as [Ep Ev].
      subst q. simpl in Ev. subst. exists [], c. split; [reflexivity|constructor].
    + intros H. destruct (IH H) as [a [b [-> Ha]]].
      exists (existT pval p x :: a), b. split; [reflexivity|]. constructor; [|assumption].
      simpl. intros ->. rewrite castp_refl in E. discriminate.
  - intros [a [b [-> Ha]]]. rewrite get_ref_app.
    apply get_ref_none in Ha. rewrite Ha. simpl. rewrite castp_refl. reflexivity.
Qed.

Lemma get_ref_and l r q :
  get_ref (and_provider l r) q
  = match get_ref l q with Some v => Some v | None => get_ref r q end.
Proof. apply get_ref_app. Qed.

Lemma get_ref_other a p (x : pval p) b q :
  p <> q -> get_ref (a ++ mk_entry p x :: b) q = get_ref (a ++ b) q.
Proof.
  intros H. rewrite !get_ref_app. destruct (get_ref a q); [reflexivity|].
  simpl. rewrite castp_neq by assumption. reflexivity.
Qed.

(** * Vectored writing *)

Lemma willing_no_zero s : willing s -> no_zero s.
Proof. induction 1 as [|r s [n ->] _ IH]; constructor; [discriminate|assumption]. Qed.

Lemma willing_left s s' : script_left s s' -> willing s -> willing s'.
Proof. intros [u ->] H. apply Forall_app in H. tauto. Qed.

Lemma write1_willing data w : willing (w_script w) ->
  exists k w', write1 data w = (inr (Some k), w').
Proof.
  intros H. unfold write1. destruct (w_script w) as [|r s]; [eauto|].
  inversion H as [|? ? [n ->] _]; subst. eauto.
Qed.

Lemma vec_loop_willing fuel bufs n w :
  willing (w_script w) -> length (w_script w) < fuel ->
  exists m w', vec_loop fuel bufs n w = (Ok m, w').
Proof.
  revert bufs n w. induction fuel as [|f IH]; intros bufs n w Hw Hf; [lia|].
  cbn [vec_loop]. pose proof (vec_inner_spec bufs w) as H1.
  destruct (vec_inner bufs w) as [[x|[len bufs']] w1] eqn:E.
  - exfalso. unfold vec_inner in E. destruct bufs as [|b0 r0]; [discriminate|].
    destruct (write1_willing (concat (b0 :: r0)) w Hw) as [k [w2 E2]]. rewrite E2 in E.
    destruct (count_removed _ _ _) as [rm acc]. destruct (skipn rm _); discriminate.
  - destruct H1 as [Hle [Hwr [Hcat [Hs [Hfull Hz]]]]]. destruct len as [|len']; [eauto|].
    destruct bufs' as [|b1 r1]; [eauto|].
    apply IH.
    + eapply willing_left; [|exact Hw]. apply Hwr.
    + destruct Hs as [Hs|Hs]; [lia|].
      destruct (Hfull Hs) as [H|H]; discriminate.
Qed.

Lemma vectored_exact {L} bufs (l : L) w :
  match write_all_vectored bufs l w with
  | (r, l', w') =>
      l' = l /\ w_trace w' = w_trace w /\ w_rng w' = w_rng w /\ w_val w' = w_val w /\
      exists p q, concat bufs = p ++ q /\ w_out w' = w_out w ++ p /\
        match r with
        | Ok n => n = length p /\ (no_zero (w_script w) -> p = concat bufs)
        | Err x => exists io, x = EIo io
        | Panic => False
        end /\
        (willing (w_script w) -> r = Ok (length (concat bufs)) /\ p = concat bufs)
  end.
Proof.
  destruct (write_all_vectored_spec bufs l w) as [p [q [w' [E [Hw Hr]]]]].
  assert (Hok : forall r l1 w1, write_all_vectored bufs l w = (r, l1, w1) ->
                willing (w_script w) -> exists n, r = Ok n).
  { intros r l1 w1 Ew Hwill. unfold write_all_vectored in Ew.
    destruct bufs as [|b0 r0]; [inversion Ew; eauto|].
    destruct (vec_loop_willing (S (S (length (w_script w)))) (b0 :: r0) 0 w Hwill)
      as [m [w2 E2]]; [lia|].
    rewrite E2 in Ew. inversion Ew; eauto. }
  destruct Hw as [Ho [Ht [Hg [Hv Hs]]]].
  destruct Hr as [[Er Hq]|[x Er]]; rewrite Er.
  - repeat split; auto. exists p, q. split; [assumption|]. split; [assumption|]. split.
    + split; [reflexivity|]. intros Hn. rewrite E, (Hq Hn), app_nil_r. reflexivity.
    + intros Hwill. apply willing_no_zero in Hwill. rewrite E, (Hq Hwill), app_nil_r. auto.
  - repeat split; auto. exists p, q. split; [assumption|]. split; [assumption|]. split.
    + eauto.
    + intros Hwill. destruct (Hok _ _ _ Er Hwill) as [n Hn]. discriminate.
Qed.
