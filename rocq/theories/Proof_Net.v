From Coq Require Import List Lia.
From Verif Require Import Bytes BytesFacts Interop Spec_Net.

Lemma cut_line_app b l r x : cut_line b = Some (l, r) -> cut_line (b ++ x) = Some (l, r ++ x).
Proof.
  revert l r. induction b as [|a b IH]; intros l r H; [discriminate H|]. cbn [cut_line app] in *.
  destruct (beq a newline).
  - injection H as <- <-. reflexivity.
  - destruct (cut_line b) as [[l' r']|]; [|discriminate H]. injection H as <- <-.
    rewrite (IH l' r' eq_refl). reflexivity.
Qed.

Section Net.
Context {S T R Q : Type} (left : S -> act S R) (right : T -> act T Q).
Notation nstep := (nstep left right).
Notation nsteps := (nsteps left right).

Lemma take_line_open b l r x closed : take_line false b = Some (l, r) ->
  take_line closed (b ++ x) = Some (l, r ++ x).
Proof.
  unfold take_line. destruct (cut_line b) as [[l' r']|] eqn:E; [|discriminate].
  rewrite (cut_line_app _ _ _ x E). intros [= <- <-]. reflexivity.
Qed.
Lemma take_line_closed b l r closed : take_line false b = Some (l, r) ->
  take_line closed b = Some (l, r).
Proof.
  intros H. pose proof (take_line_open b l r [] closed H) as E. rewrite !app_nil_r in E. exact E.
Qed.

(** Two different steps can be made one after the other in either order. *)
Lemma diamond n n1 n2 : nstep n n1 -> nstep n n2 -> n1 = n2 \/ exists n3, nstep n1 n3 /\ nstep n2 n3.
Proof.
  intros H1 H2.
  assert (XL : forall s x s', left s = AWrite x s' -> exited left s = false)
    by (intros s x s' E; unfold exited; rewrite E; reflexivity).
  assert (YL : forall s k, left s = ALine k -> exited left s = false)
    by (intros s k E; unfold exited; rewrite E; reflexivity).
  assert (XR : forall s x s', right s = AWrite x s' -> exited right s = false)
    by (intros s x s' E; unfold exited; rewrite E; reflexivity).
  assert (YR : forall s k, right s = ALine k -> exited right s = false)
    by (intros s k E; unfold exited; rewrite E; reflexivity).
  destruct H1 as [s t a b x s' E|s t a b k l b' E F|s t a b x t' E|s t a b k l a' E F];
    inversion H2 as [s0 t0 a0 b0 x0 s0' E0|s0 t0 a0 b0 k0 l0 b0' E0 F0|s0 t0 a0 b0 x0 t0' E0
                    |s0 t0 a0 b0 k0 l0 a0' E0 F0]; subst; try congruence.
  - left. congruence.
  - right. exists (mk_net s' t0' (a ++ x) (b ++ x0)). split; constructor; assumption.
  - right. rewrite (XL _ _ _ E) in F0. exists (mk_net s' (k0 l0) (a0' ++ x) b). split.
    + constructor; [assumption|]. apply take_line_open, F0.
    + constructor; assumption.
  - left. rewrite E in E0. injection E0 as <-. rewrite F in F0. injection F0 as <- <-. reflexivity.
  - right. rewrite (XR _ _ _ E0) in F. exists (mk_net (k l) t0' a (b' ++ x0)). split.
    + constructor; assumption.
    + econstructor; [eassumption|]. apply take_line_open, F.
  - right. rewrite (YR _ _ E0) in F. rewrite (YL _ _ E) in F0.
    exists (mk_net (k l) (k0 l0) a0' b'). split.
    + econstructor; [eassumption|]. apply take_line_closed, F0.
    + econstructor; [eassumption|]. apply take_line_closed, F.
  - right. exists (mk_net s0' t' (a ++ x0) (b ++ x)). split; constructor; assumption.
  - right. rewrite (XR _ _ _ E) in F0. exists (mk_net (k0 l0) t' a (b0' ++ x)). split.
    + econstructor; [eassumption|]. apply take_line_open, F0.
    + constructor; assumption.
  - left. congruence.
  - right. rewrite (XL _ _ _ E0) in F. exists (mk_net s0' (k l) (a' ++ x0) b). split.
    + constructor; assumption.
    + econstructor; [eassumption|]. apply take_line_open, F.
  - right. rewrite (YR _ _ E) in F0. rewrite (YL _ _ E0) in F.
    exists (mk_net (k0 l0) (k l) a' b0'). split.
    + econstructor; [eassumption|]. apply take_line_closed, F0.
    + econstructor; [eassumption|]. apply take_line_closed, F.
  - left. rewrite E in E0. injection E0 as <-. rewrite F in F0. injection F0 as <- <-. reflexivity.
Qed.

Lemma nsteps_trans i j a b c : nsteps i a b -> nsteps j b c -> nsteps (i + j) a c.
Proof. induction 1; auto. intros H1. cbn [Nat.add]. econstructor; eauto. Qed.

Definition stuck n := forall n', ~ nstep n n'.

(** If one run ends, every run can be continued to the same end. *)
Lemma strip k n n1 f : nsteps k n f -> stuck f -> nstep n n1 ->
  exists j, k = 1 + j /\ nsteps j n1 f.
Proof.
  intros H Hf. revert n1. induction H as [f|k n n2 f H2 H IH]; intros n1 H1.
  - exfalso. apply (Hf _ H1).
  - exists k. split; [reflexivity|]. destruct (diamond _ _ _ H1 H2) as [->|[n3 [A B]]]; [assumption|].
    destruct (IH Hf _ B) as [j [-> Hj]]. apply (NStep _ _ _ _ _ _ A Hj).
Qed.
Lemma one_end k m n n1 f : nsteps k n f -> stuck f -> nsteps m n n1 ->
  m <= k /\ nsteps (k - m) n1 f.
Proof.
  intros H Hf H1. revert k H. induction H1 as [n|m n n2 n1 H2 H1 IH]; intros k H.
  - rewrite PeanoNat.Nat.sub_0_r. split; [lia|assumption].
  - destruct (strip _ _ _ _ H Hf H2) as [j [-> Hj]]. destruct (IH j Hj) as [A B].
    split; [lia|]. exact B.
Qed.

Lemma ended_stuck n r q a b : ended left right n r q a b -> stuck n.
Proof.
  intros [A [B _]] n' H. destruct H; cbn in *; congruence.
Qed.

Lemma always_end_by k s t r q a b f :
  nsteps k (mk_net s t [] []) f -> ended left right f r q a b -> always_end left right s t r q a b.
Proof.
  intros H Hf. exists k. intros m n Hn.
  destruct (one_end _ _ _ _ _ H (ended_stuck _ _ _ _ _ Hf) Hn) as [A B]. eauto.
Qed.
(** Two descriptions of the end agree. *)
Lemma always_unique s t r q a b r' q' a' b' :
  always_end left right s t r q a b -> always_end left right s t r' q' a' b' ->
  r = r' /\ q = q' /\ a = a' /\ b = b'.
Proof.
  intros [k K] [j J].
  destruct (K _ _ (NRefl _ _ _)) as [_ [n [K1 K2]]].
  destruct (J _ _ K1) as [_ [n' [J1 J2]]].
  pose proof (ended_stuck _ _ _ _ _ K2) as St.
  inversion J1 as [|? ? n1 ? S1 S2]; subst; [|exfalso; exact (St _ S1)].
  destruct K2 as [E1 [E2 [E3 E4]]], J2 as [F1 [F2 [F3 F4]]]. repeat split; congruence.
Qed.
End Net.

(** * What one program receives is what the other has sent *)

Inductive reads (e : bool) : bytes -> list lineres -> bytes -> Prop :=
| ReadsNil b : reads e b [] b
| ReadsLine c b l b1 ls b2 : (c = true -> e = true) -> take_line c b = Some (l, b1) ->
    reads e b1 ls b2 -> reads e b (l :: ls) b2.

Lemma talks_app {S R} (p : S -> act S R) s ls out s1 ls' out' s2 :
  talks p s ls out s1 -> talks p s1 ls' out' s2 -> talks p s (ls ++ ls') (out ++ out') s2.
Proof.
  induction 1 as [s|s s1 s3 ls x out H T IH|s k l ls out s3 H T IH]; intros T2.
  - exact T2.
  - rewrite <- app_assoc. eapply TalkWrite; [exact H|auto].
  - eapply TalkLine; [exact H|auto].
Qed.
Lemma reads_snoc e b ls b1 c l b2 : (c = true -> e = true) ->
  reads e b ls b1 -> take_line c b1 = Some (l, b2) -> reads e b (ls ++ [l]) b2.
Proof.
  intros Hc. induction 1 as [b|c' b l' b1 ls b3 H1 H2 H3 IH]; intros T.
  - eapply ReadsLine; [exact Hc|exact T|constructor].
  - eapply ReadsLine; [exact H1|exact H2|auto].
Qed.
Lemma reads_mono e e' b ls b1 : (e = true -> e' = true) -> reads e b ls b1 -> reads e' b ls b1.
Proof.
  intros H. induction 1 as [b|c b l b1 ls b2 H1 H2 H3 IH]; [constructor|].
  eapply ReadsLine; [|exact H2|exact IH]. auto.
Qed.

Lemma reads_more b ls b1 x : reads false b ls b1 -> reads false (b ++ x) ls (b1 ++ x).
Proof.
  induction 1 as [b|c b l b1 ls b3 H1 H2 H3 IH]; [constructor|].
  destruct c; [discriminate (H1 eq_refl)|].
  eapply (ReadsLine _ false); [discriminate| |exact IH].
  unfold take_line in *. destruct (cut_line b) as [[l' r']|] eqn:E; [|discriminate].
  injection H2 as <- <-. rewrite (cut_line_app _ _ _ x E). reflexivity.
Qed.

Section Received.
Context {S T R Q : Type} (left : S -> act S R) (right : T -> act T Q).

Lemma received_step s t n n1 ls1 out1 ls2 out2 :
  talks left s ls1 out1 (n_left n) -> talks right t ls2 out2 (n_right n) ->
  reads (exited left (n_left n)) out1 ls2 (n_to_right n) ->
  reads (exited right (n_right n)) out2 ls1 (n_to_left n) ->
  nstep left right n n1 ->
  exists ls1' out1' ls2' out2',
    talks left s ls1' out1' (n_left n1) /\ talks right t ls2' out2' (n_right n1) /\
    reads (exited left (n_left n1)) out1' ls2' (n_to_right n1) /\
    reads (exited right (n_right n1)) out2' ls1' (n_to_left n1).
Proof.
  intros T1 T2 R1 R2 H. destruct H as [u v a b x u' H|u v a b k l b' H L|u v a b x v' H|u v a b k l a' H L];
    cbn [n_left n_right n_to_left n_to_right] in *.
  - exists ls1, (out1 ++ x), ls2, out2.
    replace (exited left u) with false in R1 by (unfold exited; rewrite H; reflexivity).
    split; [|split; [exact T2|split; [|exact R2]]].
    + rewrite <- (app_nil_r ls1). eapply talks_app; [exact T1|]. rewrite <- (app_nil_r x).
      eapply TalkWrite; [exact H|constructor].
    + eapply reads_mono; [|apply reads_more; exact R1]. discriminate.
  - exists (ls1 ++ [l]), out1, ls2, out2.
    replace (exited left u) with false in R1 by (unfold exited; rewrite H; reflexivity).
    split; [|split; [exact T2|split]].
    + rewrite <- (app_nil_r out1). eapply talks_app; [exact T1|].
      eapply TalkLine; [exact H|constructor].
    + eapply reads_mono; [|exact R1]. discriminate.
    + eapply reads_snoc; [|exact R2|exact L]. auto.
  - exists ls1, out1, ls2, (out2 ++ x).
    replace (exited right v) with false in R2 by (unfold exited; rewrite H; reflexivity).
    split; [exact T1|split; [|split; [exact R1|]]].
    + rewrite <- (app_nil_r ls2). eapply talks_app; [exact T2|]. rewrite <- (app_nil_r x).
      eapply TalkWrite; [exact H|constructor].
    + eapply reads_mono; [|apply reads_more; exact R2]. discriminate.
  - exists ls1, out1, (ls2 ++ [l]), out2.
    replace (exited right v) with false in R2 by (unfold exited; rewrite H; reflexivity).
    split; [exact T1|split; [|split]].
    + rewrite <- (app_nil_r out2). eapply talks_app; [exact T2|].
      eapply TalkLine; [exact H|constructor].
    + eapply reads_snoc; [|exact R1|exact L]. auto.
    + eapply reads_mono; [|exact R2]. discriminate.
Qed.

Theorem received s t m n : nsteps left right m (mk_net s t [] []) n ->
  exists ls1 out1 ls2 out2,
    talks left s ls1 out1 (n_left n) /\ talks right t ls2 out2 (n_right n) /\
    reads (exited left (n_left n)) out1 ls2 (n_to_right n) /\
    reads (exited right (n_right n)) out2 ls1 (n_to_left n).
Proof.
  assert (G : forall m n0 n, nsteps left right m n0 n ->
    (exists ls1 out1 ls2 out2,
      talks left s ls1 out1 (n_left n0) /\ talks right t ls2 out2 (n_right n0) /\
      reads (exited left (n_left n0)) out1 ls2 (n_to_right n0) /\
      reads (exited right (n_right n0)) out2 ls1 (n_to_left n0)) ->
    exists ls1 out1 ls2 out2,
      talks left s ls1 out1 (n_left n) /\ talks right t ls2 out2 (n_right n) /\
      reads (exited left (n_left n)) out1 ls2 (n_to_right n) /\
      reads (exited right (n_right n)) out2 ls1 (n_to_left n)).
  { clear. intros m n0 n H. induction H as [n|k n n1 n2 H H2 IH]; intros K; [exact K|].
    destruct K as [ls1 [out1 [ls2 [out2 [T1 [T2 [R1 R2]]]]]]]. apply IH.
    eapply received_step; eauto. }
  intros H. apply (G _ _ _ H). exists [], [], [], []. repeat split; constructor.
Qed.
End Received.
