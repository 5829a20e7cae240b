(** What sessions say is text (C116). *)
From Coq Require Import Lia.
From Verif Require Import Bytes BytesFacts Utf8 Utf8Facts Base64 Base64Facts Num NumFacts Types World CallbackSpec
  WorldFacts MonadFacts Simple OAuth ScramParser Scram Gssapi Session Registry Frame Json
  Spec_Simple Spec_Wire Spec_History Spec_Registry Spec_Json Spec_ScramText Spec_Utter Proof_Utf8 Proof_Registry Proof_Text Proof_ScramText Proof_Scram Proof_Nonce Proof_Derive.
Open Scope m_scope.

Notation ok b := (utf8_valid b = true).

Lemma ok_app a b : ok a -> ok b -> ok (a ++ b).
Proof. intros Ha Hb. rewrite utf8_app; assumption. Qed.
Lemma text_ok x : utf8_text x -> ok x.
Proof. apply utf8_exact. Qed.

Section Says.
Context (tv : forall p, pval p -> Prop).
Definition fine (evs : list event) : Prop := forall p v, In (EvAnswer p v) evs -> tv p v.

(** If [P] holds and the local state is in [I], then after text answers it still is, the value is
    in [Q] and a writer that accepts everything got text. *)
Definition says {L A} (P : Prop) (I : L -> Prop) (m : M L A) (Q : A -> Prop) : Prop :=
  forall l w, match m l w with (r, l', w') =>
    exists evs o, w_trace w' = w_trace w ++ evs /\ w_out w' = w_out w ++ o /\
      (w_script w = [] -> w_script w' = []) /\
      (P -> I l -> fine evs ->
        I l' /\ (forall a, r = Ok a -> Q a) /\ (w_script w = [] -> ok o)) end.

Lemma fine_app a b : fine (a ++ b) <-> fine a /\ fine b.
Proof.
  unfold fine. split.
  - intros H. split; intros p v Hv; apply H; apply in_or_app; auto.
  - intros [H1 H2] p v Hv. apply in_app_or in Hv. destruct Hv; auto.
Qed.

(** Nothing said. *)
Lemma says_quiet {L A} (P : Prop) (I : L -> Prop) (m : M L A) (Q : A -> Prop) :
  (forall l w, exists r l', m l w = (r, l', w) /\ (P -> I l -> I l' /\ forall a, r = Ok a -> Q a)) -> says P I m Q.
Proof.
  intros H l w. destruct (H l w) as (r & l' & -> & K). exists [], []. rewrite !app_nil_r.
  split; [reflexivity|]. split; [reflexivity|]. split; [auto|]. intros p i _. destruct (K p i). auto.
Qed.
Lemma says_ret {L A} (P : Prop) (I : L -> Prop) (a : A) (Q : A -> Prop) : (P -> Q a) -> says P I (ret a) Q.
Proof. intros H. apply says_quiet. intros l w. exists (Ok a), l. split; [reflexivity|]. intros p i. split; [exact i|]. intros b [= <-]. auto. Qed.
Lemma says_fail {L A} P (I : L -> Prop) x (Q : A -> Prop) : says P I (fail x) Q.
Proof. apply says_quiet. intros l w. exists (Err x), l. split; [reflexivity|]. intros p i. split; [exact i|]. discriminate. Qed.
Lemma says_panic {L A} P (I : L -> Prop) (Q : A -> Prop) : says P I panic Q.
Proof. apply says_quiet. intros l w. exists Panic, l. split; [reflexivity|]. intros p i. split; [exact i|]. discriminate. Qed.
Lemma says_getl {L} P (I : L -> Prop) : says P I getl I.
Proof. apply says_quiet. intros l w. exists (Ok l), l. split; [reflexivity|]. intros p i. split; [exact i|]. intros a [= <-]. exact i. Qed.
Lemma says_setl {L} (P : Prop) (I : L -> Prop) x : (P -> I x) -> says P I (setl x) (fun _ => True).
Proof. intros H. apply says_quiet. intros l w. exists (Ok tt), x. split; [reflexivity|]. auto. Qed.
Lemma says_of_res {L A} (P : Prop) (I : L -> Prop) (r : res serr A) (Q : A -> Prop) : (forall a, P -> r = Ok a -> Q a) -> says P I (of_res r) Q.
Proof. intros H. apply says_quiet. intros l w. exists r, l. split; [reflexivity|]. auto. Qed.
Lemma says_weaken {L A} (P P' : Prop) I (m : M L A) (Q Q' : A -> Prop) :
  (P' -> P) -> (forall a, P' -> Q a -> Q' a) -> says P I m Q -> says P' I m Q'.
Proof.
  intros HP HQ H l w. specialize (H l w). destruct (m l w) as [[r l'] w'].
  destruct H as (evs & o & T & O & S0 & K). exists evs, o. split; [exact T|]. split; [exact O|]. split; [exact S0|].
  intros p i f. destruct (K (HP p) i f) as (K1 & K2 & K3). eauto.
Qed.
Lemma says_bind {L A B} P I (m : M L A) Q (f : A -> M L B) R :
  says P I m Q -> (forall a, says (P /\ Q a) I (f a) R) -> says P I (bind m f) R.
Proof.
  intros Hm Hf l w. unfold bind. specialize (Hm l w). destruct (m l w) as [[[a|x|] l1] w1].
  2,3: destruct Hm as (evs & o & T & O & S0 & K); exists evs, o; split; [exact T|]; split; [exact O|]; split; [exact S0|];
    intros p i g; destruct (K p i g) as (K1 & _ & K3); split; [exact K1|]; split; [discriminate|exact K3].
  destruct Hm as (evs & o & T & O & S0 & K). specialize (Hf a l1 w1). destruct (f a l1 w1) as [[r l2] w2].
  destruct Hf as (evs2 & o2 & T2 & O2 & S2 & K'). exists (evs ++ evs2), (o ++ o2).
  split; [rewrite T2, T, app_assoc; reflexivity|]. split; [rewrite O2, O, app_assoc; reflexivity|]. split; [auto|].
  intros p i g. apply fine_app in g. destruct g as [g1 g2]. destruct (K p i g1) as (K1 & K2 & K3).
  destruct (K' (conj p (K2 a eq_refl)) K1 g2) as (K1' & K2' & K3').
  split; [exact K1'|]. split; [exact K2'|]. intros s. apply ok_app; auto.
Qed.
Lemma says_write {L} (P : Prop) (I : L -> Prop) d : (P -> ok d) -> says P I (write_all d) (fun _ => True).
Proof.
  intros H l w. destruct (write_all_spec d l w) as (p & q & w' & E & W & R).
  assert (Hw : exists r, write_all d l w = (r, l, w')) by (destruct R as [[-> _]|[x ->]]; eauto).
  destruct Hw as [r Hr]. rewrite Hr. pose proof W as W0. destruct W as (Wo & Wt & _ & _ & (u & Ws)).
  exists [], p. split; [rewrite app_nil_r; exact Wt|]. split; [exact Wo|].
  split; [intros Hs; rewrite Hs in Ws; symmetry in Ws; apply app_eq_nil in Ws; tauto|].
  intros hp i _. split; [exact i|]. split; [auto|]. intros Hs. rewrite (write_all_full d l w Hs) in Hr.
  injection Hr as _ <-. rewrite <- (H hp). f_equal. apply (app_inv_head (w_out w)). symmetry. exact Wo.
Qed.
Lemma says_vectored {L} (P : Prop) (I : L -> Prop) bs : (P -> ok (concat bs)) -> says P I (write_all_vectored bs) (fun _ => True).
Proof.
  intros H l w. destruct (write_all_vectored_spec bs l w) as (p & q & w' & E & W & R).
  assert (Hw : exists r, write_all_vectored bs l w = (r, l, w')) by (destruct R as [[-> _]|[x ->]]; eauto).
  destruct Hw as [r Hr]. rewrite Hr. destruct W as (Wo & Wt & _ & _ & (u & Ws)).
  exists [], p. split; [rewrite app_nil_r; exact Wt|]. split; [exact Wo|].
  split; [intros Hs; rewrite Hs in Ws; symmetry in Ws; apply app_eq_nil in Ws; tauto|].
  intros hp i _. split; [exact i|]. split; [auto|]. intros Hs. rewrite (write_all_vectored_full bs l w Hs) in Hr.
  injection Hr as _ <-. rewrite <- (H hp). f_equal. apply (app_inv_head (w_out w)). symmetry. exact Wo.
Qed.
Lemma says_events {L A} (P : Prop) (I : L -> Prop) (m : M L A) (Q : A -> Prop) :
  (forall l w, exists r evs, m l w = (r, l, mk_world (w_out w) (w_script w) (w_trace w ++ evs) (w_rng w) (w_val w)) /\
    forall a, P -> r = Ok a -> Q a) -> says P I m Q.
Proof.
  intros H l w. destruct (H l w) as (r & evs & -> & K). exists evs, []. rewrite !app_nil_r. cbn.
  split; [reflexivity|]. split; [reflexivity|]. split; [auto|]. intros p i _. auto.
Qed.
Lemma says_log {L} P (I : L -> Prop) ev : says P I (log ev) (fun _ => True).
Proof. apply says_events. intros l w. exists (Ok tt), [ev]. split; [reflexivity|]. auto. Qed.
Lemma says_locally {L L' A} (P : Prop) (I : L -> Prop) (I' : L' -> Prop) l0 (m : M L' A) (Q : A -> Prop) :
  (P -> I' l0) -> says P I' m Q -> says P I (locally l0 m) (fun al => Q (fst al)).
Proof.
  intros H0 H l w. unfold locally. specialize (H l0 w). destruct (m l0 w) as [[[a|x|] l1] w1];
    destruct H as (evs & o & T & O & S0 & K); exists evs, o; (split; [exact T|]); (split; [exact O|]); (split; [exact S0|]);
    intros p i f; destruct (K p (H0 p) f) as (K1 & K2 & K3); (split; [exact i|]); (split; [|exact K3]); try discriminate.
  intros al [= <-]. auto.
Qed.
Lemma says_ignore {L A} P (I : L -> Prop) (m : M L A) Q : says P I m Q -> says P I (ignore m) (fun _ => True).
Proof.
  intros H l w. unfold ignore. specialize (H l w). destruct (m l w) as [[[a|x|] l1] w1];
    destruct H as (evs & o & T & O & S0 & K); exists evs, o; (split; [exact T|]); (split; [exact O|]); (split; [exact S0|]);
    intros p i f; destruct (K p i f) as (K1 & K2 & K3); auto.
Qed.

(** The consumer of a request runs after the answer was observed. *)
Lemma says_maybe {L G0} e q c (f : pval q -> M L G0) (P : Prop) I (Q : G0 -> Prop) :
  (forall v, says (P /\ tv q v) I (f v) Q) ->
  says P I (maybe_need_with e q c f) (fun o => forall g, o = Some g -> Q g).
Proof.
  intros Hf.
  assert (Hc : forall v, says P I (log (EvAnswer q v) ;;; f v) Q).
  { intros v l w. unfold bind, log. specialize (Hf v l (add_event (EvAnswer q v) w)).
    destruct (f v l (add_event (EvAnswer q v) w)) as [[r l1] w1]. destruct Hf as (evs & o & T & O & S0 & K).
    exists (EvAnswer q v :: evs), o. rewrite add_event_events in *. cbn in T, O, S0, K.
    split; [rewrite T, <- app_assoc; reflexivity|]. split; [exact O|]. split; [exact S0|].
    intros p i g. assert (g' : fine evs) by (intros p0 v0 H0; apply g; right; exact H0).
    apply K; [split; [exact p|apply g; left; reflexivity]|exact i|exact g']. }
  assert (Hr : forall p st l w, match run_satisfy q f p st l w with (r, st', l', w') =>
    exists evs o, w_trace w' = w_trace w ++ evs /\ w_out w' = w_out w ++ o /\
      (w_script w = [] -> w_script w' = []) /\
      (P -> I l -> fine evs -> (forall g, st = CrSatisfied g -> Q g) ->
        I l' /\ (forall g, st' = CrSatisfied g -> Q g) /\ (w_script w = [] -> ok o)) end).
  { assert (Hs : forall st v l w, match cr_satisfy q f st v l w with (r, st', l', w') =>
      exists evs o, w_trace w' = w_trace w ++ evs /\ w_out w' = w_out w ++ o /\
        (w_script w = [] -> w_script w' = []) /\
        (P -> I l -> fine evs -> (forall g, st = CrSatisfied g -> Q g) ->
          I l' /\ (forall g, st' = CrSatisfied g -> Q g) /\ (w_script w = [] -> ok o)) end).
    { intros st v l w. unfold cr_satisfy. destruct st as [|g|].
      2,3: exists [], []; rewrite !app_nil_r; (split; [reflexivity|]); (split; [reflexivity|]); (split; [auto|]);
        intros p i _ _; (split; [exact i|]); split; [discriminate|reflexivity].
      specialize (Hc v l w). destruct ((log (EvAnswer q v) ;;; f v) l w) as [[[g|x|] l1] w1];
        destruct Hc as (evs & o & T & O & S0 & K); exists evs, o; (split; [exact T|]); (split; [exact O|]); (split; [exact S0|]);
        intros p i g0 _; destruct (K p i g0) as (K1 & K2 & K3); (split; [exact K1|]); (split; [|exact K3]); try discriminate.
      intros g1 [= <-]. auto. }
    assert (Hgo : forall (r : res serr unit) k st' l' w' st l w,
      (exists evs o, w_trace w' = w_trace w ++ evs /\ w_out w' = w_out w ++ o /\
        (w_script w = [] -> w_script w' = []) /\
        (P -> I l -> fine evs -> (forall g, st = CrSatisfied g -> Q g) ->
          I l' /\ (forall g, st' = CrSatisfied g -> Q g) /\ (w_script w = [] -> ok o))) ->
      match run_satisfy q f k st' l' w' with (r, st2, l2, w2) =>
        exists evs o, w_trace w2 = w_trace w' ++ evs /\ w_out w2 = w_out w' ++ o /\
        (w_script w' = [] -> w_script w2 = []) /\
        (P -> I l' -> fine evs -> (forall g, st' = CrSatisfied g -> Q g) ->
          I l2 /\ (forall g, st2 = CrSatisfied g -> Q g) /\ (w_script w' = [] -> ok o)) end ->
      match run_satisfy q f k st' l' w' with (r, st2, l2, w2) =>
        exists evs o, w_trace w2 = w_trace w ++ evs /\ w_out w2 = w_out w ++ o /\
        (w_script w = [] -> w_script w2 = []) /\
        (P -> I l -> fine evs -> (forall g, st = CrSatisfied g -> Q g) ->
          I l2 /\ (forall g, st2 = CrSatisfied g -> Q g) /\ (w_script w = [] -> ok o)) end).
    { intros _ k st' l' w' st l w (evs & o & T & O & S0 & K) H.
      destruct (run_satisfy q f k st' l' w') as [[[r st2] l2] w2]. destruct H as (evs2 & o2 & T2 & O2 & S2 & K2).
      exists (evs ++ evs2), (o ++ o2). split; [rewrite T2, T, app_assoc; reflexivity|].
      split; [rewrite O2, O, app_assoc; reflexivity|]. split; [auto|]. intros p i g s. apply fine_app in g. destruct g as [g1 g2].
      destruct (K p i g1 s) as (K1 & K3 & K4). destruct (K2 p K1 g2 K3) as (K1' & K3' & K4').
      split; [exact K1'|]. split; [exact K3'|]. intros e0. apply ok_app; auto. }
    assert (Hev : forall st l w, exists evs o, w_trace (add_event (EvClosure q) w) = w_trace w ++ evs /\
        w_out (add_event (EvClosure q) w) = w_out w ++ o /\
        (w_script w = [] -> w_script (add_event (EvClosure q) w) = []) /\
        (P -> I l -> fine evs -> (forall g, st = CrSatisfied g -> Q g) ->
          I l /\ (forall g, st = CrSatisfied g -> Q g) /\ (w_script w = [] -> ok o))).
    { intros st l w. exists [EvClosure q], []. rewrite !app_nil_r. cbn.
      split; [reflexivity|]. split; [reflexivity|]. split; [auto|]. auto. }
    induction p as [r|p v k IH|p cc k IH|p k IH|p k IH]; intros st l w; cbn [run_satisfy].
    - exists [], []. rewrite !app_nil_r. split; [reflexivity|]. split; [reflexivity|]. split; [auto|]. auto.
    - destruct (castp v) as [v'|]; [|apply IH]. specialize (Hs st v' l w).
      destruct (cr_satisfy q f st v' l w) as [[[[u|x|] st1] l1] w1]; [apply (Hgo (Ok tt) _ _ _ _ st l w); [exact Hs|apply IH]..|exact Hs].
    - destruct (prop_eq_dec p q) as [->|]; [|apply IH]. specialize (Hev st l w).
      destruct cc as [x|v]; [apply (Hgo (Ok tt) _ _ _ _ st l w); [exact Hev|apply IH]|].
      destruct (castp v) as [v'|]; [|apply (Hgo (Ok tt) _ _ _ _ st l w); [exact Hev|apply IH]].
      specialize (Hs st v' l (add_event (EvClosure q) w)).
      assert (Hc2 : match cr_satisfy q f st v' l (add_event (EvClosure q) w) with (r, st', l', w') =>
        exists evs o, w_trace w' = w_trace w ++ evs /\ w_out w' = w_out w ++ o /\
        (w_script w = [] -> w_script w' = []) /\
        (P -> I l -> fine evs -> (forall g, st = CrSatisfied g -> Q g) ->
          I l' /\ (forall g, st' = CrSatisfied g -> Q g) /\ (w_script w = [] -> ok o)) end).
      { destruct (cr_satisfy q f st v' l (add_event (EvClosure q) w)) as [[[r1 st1] l1] w1].
        destruct Hs as (evs & o & T & O & S0 & K). exists (EvClosure q :: evs), o. cbn in T, O, S0, K.
        split; [rewrite T, <- app_assoc; reflexivity|]. split; [exact O|]. split; [exact S0|].
        intros p i g s. apply K; auto. intros p0 v0 H0. apply g. right. exact H0. }
      destruct (cr_satisfy q f st v' l (add_event (EvClosure q) w)) as [[[[u|x|] st1] l1] w1]; [apply (Hgo (Ok tt) _ _ _ _ st l w); [exact Hc2|apply IH]..|exact Hc2].
    - apply IH.
    - apply IH. }
  intros l w. unfold maybe_need_with. specialize (Hr (e_cb e (w_trace w) (e_sd e) c (RSatisfy q)) CrOpen l (add_event (EvRequest q c) w)).
  destruct (run_satisfy q f _ CrOpen l (add_event (EvRequest q c) w)) as [[[r st] l1] w1].
  destruct Hr as (evs & o & T & O & S0 & K). cbn in T, O, S0, K.
  assert (Hdone : forall (r' : res serr (option G0)), (forall o1 g, r' = Ok o1 -> o1 = Some g -> st = CrSatisfied g) ->
    exists evs0 o0, w_trace w1 = w_trace w ++ evs0 /\ w_out w1 = w_out w ++ o0 /\ (w_script w = [] -> w_script w1 = []) /\
      (P -> I l -> fine evs0 -> I l1 /\ (forall a, r' = Ok a -> forall g, a = Some g -> Q g) /\ (w_script w = [] -> ok o0))).
  { intros r' H'. exists (EvRequest q c :: evs), o. split; [rewrite T, <- app_assoc; reflexivity|]. split; [exact O|]. split; [exact S0|].
    intros p i g. assert (g' : fine evs) by (intros p0 v0 H0; apply g; right; exact H0).
    destruct (K p i g') as (K1 & K2 & K3); [discriminate|]. split; [exact K1|]. split; [|exact K3]. eauto. }
  destruct r as [r|x|]; [|apply Hdone; discriminate..].
  destruct (mask_early r) as [[]|]; apply Hdone; try discriminate;
    intros o1 g [= <-] E; destruct st; try discriminate; injection E as ->; reflexivity.
Qed.
Lemma says_need {L G0} e q c (f : pval q -> M L G0) (P : Prop) I (Q : G0 -> Prop) :
  (forall v, says (P /\ tv q v) I (f v) Q) -> says P I (need_with e q c f) Q.
Proof.
  intros H. unfold need_with. eapply says_bind; [apply says_maybe; exact H|].
  intros [g|]; [apply says_ret; intros [_ K]; auto|apply says_fail].
Qed.
Lemma says_maybe_cb {L G0} e name c (f : bytes -> M L G0) (P : Prop) I (Q : G0 -> Prop) :
  (forall v, says P I (f v) Q) ->
  says P I (maybe_need_cb_data e name c f) (fun o => forall g, o = Some g -> Q g).
Proof.
  intros H. unfold maybe_need_cb_data. eapply says_bind; [apply says_log|]. intros u. destruct (e_chan e name).
  - eapply says_bind; [eapply says_weaken; [|intros a _ K; exact K|apply H]; tauto|].
    intros g. apply says_ret. intros [_ K] g0 [= <-]. exact K.
  - apply says_maybe. intros v. eapply says_weaken; [|intros a _ K; exact K|apply H]. tauto.
Qed.
Lemma says_need_cb {L G0} e name c (f : bytes -> M L G0) (P : Prop) I (Q : G0 -> Prop) :
  (forall v, says P I (f v) Q) -> says P I (need_cb_data e name c f) Q.
Proof.
  intros H. unfold need_cb_data. eapply says_bind; [apply says_maybe_cb; exact H|].
  intros [g|]; [apply says_ret; intros [_ K]; auto|apply says_fail].
Qed.
Lemma says_action {L} e q c v P (I : L -> Prop) : says P I (action e q c v) (fun _ => True).
Proof.
  apply says_events. intros l w. unfold action.
  destruct (run_action_taken q (e_cb e (w_trace w) (e_sd e) c (RAction q)) (Some v) (w_trace w ++ [EvAction q v c])) as (evs & _ & Ev).
  destruct (run_action _ _ _ _) as [[r slot] tr]. cbn in Ev. subst tr. rewrite <- app_assoc.
  destruct (mask_early r); [|destruct slot]; eauto.
Qed.
Lemma says_validate {L} e c P (I : L -> Prop) : says P I (validate e c) (fun _ => True).
Proof.
  intros l w. unfold validate. destruct (run_validate _ _ _) as [r slot].
  destruct r; exists [EvValidate c], []; cbn; rewrite !app_nil_r; (split; [reflexivity|]); (split; [reflexivity|]); (split; [auto|]);
    intros p i _; auto.
Qed.
Lemma says_draws {L} e n P (I : L -> Prop) : says P I (draws e n) (fun _ => True).
Proof.
  induction n as [|n IH]; [apply says_ret; auto|]. cbn [draws]. eapply says_bind with (Q := fun _ => True).
  - intros l w. cbn. exists [], []. rewrite !app_nil_r. split; [reflexivity|]. split; [reflexivity|]. split; [auto|]. auto.
  - intros x. eapply says_bind; [eapply says_weaken; [|intros a _ K; exact K|exact IH]; tauto|].
    intros y. apply says_ret. auto.
Qed.
End Says.

(** * The mechanisms *)

Definition any {L} (_ : L) : Prop := True.

(** Goals of the form "these pieces are text". *)
Ltac texts := repeat match goal with
  | |- _ -> _ => intros
  | H : _ /\ _ |- _ => destruct H
  | |- ok (_ ++ _) => apply ok_app
  | |- ok (concat _) => cbn [concat]
  | |- ok [] => reflexivity
  | |- ok (lit _) => reflexivity
  end; try (reflexivity || assumption || (apply text_ok; assumption)).

Ltac say := repeat (lazymatch goal with
  | |- says _ _ _ (bind _ _) _ => eapply says_bind; [|intros ?]
  | |- says _ _ _ (ret _) _ => first [ refine (says_ret _ _ _ _ (fun _ => True) (fun _ => Logic.I)) | apply says_ret; try solve [auto] ]
  | |- says _ _ _ (fail _) _ => apply says_fail
  | |- says _ _ _ (scram_proto _) _ => apply says_fail
  | |- says _ _ _ panic _ => apply says_panic
  | |- says _ _ _ getl _ => apply says_getl
  | |- says _ _ _ (setl _) _ => apply says_setl; try solve [exact (fun _ => Logic.I) | auto]
  | |- says _ _ _ (write_all _) _ => apply says_write
  | |- says _ _ _ (write_all_vectored _) _ => apply says_vectored
  | |- says _ _ _ (validate _ _) _ => apply says_validate
  | |- says _ _ _ (action _ _ _ _) _ => apply says_action
  | |- says _ _ _ (maybe_need_with _ _ _ _) _ => apply says_maybe; intros ?
  | |- says _ _ _ (need_with _ _ _ _) _ => apply says_need; intros ?
  | |- says _ _ _ (match ?x with _ => _ end) _ => destruct x eqn:?
  end).

Lemma j_escape_high b : in_range 0 127 b = false -> j_escape b = [b].
Proof. destruct b as [[] [] [] [] [] [] [] []]; intros H; try discriminate H; reflexivity. Qed.
Lemma j_escape_low b : in_range 0 127 b = true -> ok (j_escape b).
Proof. destruct b as [[] [] [] [] [] [] [] []]; intros H; try discriminate H; reflexivity. Qed.
Lemma first_low (x : bytes) : flat_map j_escape x = x \/
  exists a c r, x = a ++ c :: r /\ flat_map j_escape a = a /\ in_range 0 127 c = true.
Proof.
  induction x as [|y x IH]; [left; reflexivity|]. destruct (in_range 0 127 y) eqn:E.
  - right. exists [], y, x. auto.
  - destruct IH as [IH|(a & c & r & -> & Ha & Hc)].
    + left. cbn [flat_map]. rewrite (j_escape_high y E). cbn [app]. f_equal. exact IH.
    + right. exists (y :: a), c, r. split; [reflexivity|]. split; [|exact Hc].
      cbn [flat_map]. rewrite (j_escape_high y E). cbn [app]. f_equal. exact Ha.
Qed.
Lemma j_flat_len n : forall x, length x <= n -> ok x -> ok (flat_map j_escape x).
Proof.
  induction n as [|n IH]; intros x Hn H; [destruct x; [reflexivity|cbn in Hn; lia]|].
  destruct (first_low x) as [-> |(a & c & r & -> & Ha & Hc)]; [exact H|].
  destruct (utf8_cut _ _ _ Hc H) as [H1 H2]. rewrite flat_map_app. cbn [flat_map].
  apply ok_app; [eapply eq_trans; [|exact H1]; f_equal; exact Ha|]. apply ok_app; [apply j_escape_low; exact Hc|]. apply IH; [|exact H2].
  rewrite app_length in Hn. cbn in Hn. unfold byte in *. lia.
Qed.
Lemma j_string_ok x : utf8_text x -> ok (j_string x).
Proof. intros H. unfold j_string. apply ok_app; [reflexivity|]. apply ok_app; [|reflexivity]. apply (j_flat_len (length x)); [lia|apply text_ok; exact H]. Qed.
Lemma json_ok o : text_error o -> ok (json_to o).
Proof.
  intros (H1 & H2 & H3). unfold json_to, j_optional, j_member. 
  destruct (ob_scope o) as [x|]; destruct (ob_openid o) as [y|]; texts;
    apply j_string_ok; auto; apply utf8_exact; reflexivity.
Qed.

Lemma json_says {L} tv (P : Prop) (I : L -> Prop) e o : (P -> ok (e_json_to e o)) -> says tv P I (write_json e o) (fun _ => True).
Proof.
  intros H l w. unfold write_json. pose proof (says_write tv P I (e_json_to e o) H l w) as K.
  destruct (write_all (e_json_to e o) l w) as [[[u|x|] l1] w1]; destruct K as (evs & out & K1 & K2 & K3 & K4);
    exists evs, out; (split; [exact K1|]); (split; [exact K2|]); (split; [exact K3|]); intros p i f;
    destruct (K4 p i f) as (A1 & A2 & A3); auto.
Qed.

Section Mechs.
Context (tv : forall p, pval p -> Prop) (Hs : forall p v, tv p v -> str_value p v).

Lemma plain_says e i : (forall v, tv PPassword v -> utf8_text v) ->
  says tv True any (plain_client_step e i) any.
Proof.
  intros Hp. unfold plain_client_step. say; texts.
  all: try match goal with H : tv PPassword _ |- _ => apply text_ok, Hp; exact H end.
  all: match goal with H : tv _ _ |- _ => apply text_ok; exact (Hs _ _ H) end.
Qed.

Lemma login_client_says e i : (forall v, tv PPassword v -> utf8_text v) ->
  says tv True any (login_client_step e i) any.
Proof.
  intros Hp. unfold login_client_step. say; texts.
  all: try match goal with H : tv PPassword _ |- _ => apply text_ok, Hp; exact H end.
  all: match goal with H : tv _ _ |- _ => apply text_ok; exact (Hs _ _ H) end.
Qed.
Lemma login_server_says e i : says tv True any (login_server_step e i) any.
Proof. unfold login_server_step. say; texts. Qed.
Lemma external_client_says e i : says tv True any (external_client_step e i) any.
Proof.
  unfold external_client_step. say; texts.
  match goal with H : tv _ _ |- _ => apply text_ok; exact (Hs _ _ H) end.
Qed.
Lemma anonymous_client_says e i : says tv True any (anonymous_client_step e i) any.
Proof.
  unfold anonymous_client_step. say; texts.
  match goal with H : tv _ _ |- _ => apply text_ok; exact (Hs _ _ H) end.
Qed.
Lemma xoauth2_client_says e i : says tv True any (xoauth2_client_step e i) any.
Proof.
  unfold xoauth2_client_step. say; texts.
  all: match goal with H : tv _ _ |- _ => apply text_ok; exact (Hs _ _ H) end.
Qed.
Lemma xoauth2_server_says e i : says tv True any (xoauth2_server_step e i) any.
Proof.
  unfold xoauth2_server_step. say; texts.
  - apply says_of_res. intros. exact Logic.I.
  - match goal with H : tv _ _ |- _ => apply text_ok; exact (Hs _ _ H _ eq_refl) end.
Qed.
Lemma kv_says {L} (P : Prop) (I : L -> Prop) kv : (P -> str_value POAuthBearerKV kv) -> says tv P I (ob_write_kv kv) (fun _ => True).
Proof.
  induction kv as [|[k v] r IH]; intros H; cbn [ob_write_kv]; [apply says_ret; auto|].
  eapply says_bind; [apply says_vectored|intros ?; eapply says_weaken; [|intros ? _ K; exact K|apply IH]; [tauto|]].
  - intros p. destruct (H p k v (or_introl eq_refl)) as [Hk Hv]. texts.
  - intros p k' v' Hi. apply (H p). right. exact Hi.
Qed.
Lemma oauthbearer_client_says e i : says tv True any (oauthbearer_client_step e i) any.
Proof.
  unfold oauthbearer_client_step. say; try apply kv_says; texts.
  all: try match goal with H : tv _ _ |- _ => apply text_ok; exact (Hs _ _ H) end.
  exact (Hs _ _ H0).
Qed.
Lemma oauthbearer_server_says e i : json_text e -> says tv True any (oauthbearer_server_step e i) any.
Proof.
  intros Hj. unfold oauthbearer_server_step. say; try apply json_says; texts.
  - apply says_of_res. intros. exact Logic.I.
  - apply text_ok, Hj. match goal with H : tv _ _ |- _ => exact (Hs _ _ H) end.
Qed.

(** SCRAM *)

Lemma encode_ok b : ok (encode b).
Proof.
  apply utf8_ascii. pose proof (encode_chars b) as H. rewrite forallb_forall in *. intros x Hx. specialize (H x Hx).
  clear Hx. revert H. destruct x as [[] [] [] [] [] [] [] []]; intros H; try discriminate H; reflexivity.
Qed.
Lemma nonce_says {L} e P (I : L -> Prop) : says tv P I (generate_nonce e) (fun n => ok n).
Proof.
  unfold generate_nonce. eapply says_bind; [apply says_draws|]. intros l. apply says_ret. intros _. apply utf8_ascii.
  rewrite forallb_forall. intros x Hx. apply in_map_iff in Hx. destruct Hx as (k & <- & _).
  assert (K : forallb is_ascii printable = true) by reflexivity. rewrite forallb_forall in K. apply K, pick_printable.
Qed.
Definition header_ok (l : cf_locals) : Prop := ok (fst l).
Lemma push_says (P : Prop) x : (P -> ok x) -> says tv P header_ok (push_gs2 x) (fun _ => True).
Proof.
  intros H. unfold push_gs2. eapply says_bind; [apply says_getl|]. intros l. apply says_setl. intros [p K].
  unfold header_ok in *. cbn. apply ok_app; auto.
Qed.
Lemma cbdata_says P d : says tv P header_ok (set_cbdata d) (fun _ => True).
Proof. unfold set_cbdata. eapply says_bind; [apply says_getl|]. intros l. apply says_setl. intros [_ K]. exact K. Qed.
Lemma esc_says {L} (P : Prop) (I : L -> Prop) x : (P -> ok x) -> says tv P I (esc x) (fun y => ok y).
Proof.
  intros H. unfold esc. apply says_of_res. intros a p E. destruct (escape x) eqn:Ex; try discriminate. injection E as <-.
  exact (escape_utf8 _ _ Ex (H p)).
Qed.
Lemma true_says {L A} P (I : L -> Prop) (m : M L A) Q : says tv P I m Q -> says tv P I m (fun _ => True).
Proof. apply says_weaken; auto. Qed.
Lemma flag_says e plus P : says tv P header_ok (client_cbflag e plus) (fun _ => True).
Proof.
  unfold client_cbflag. destruct plus; try (apply push_says; reflexivity).
  eapply says_bind; [apply push_says; reflexivity|]. intros ?.
  eapply says_bind with (Q := fun _ => True).
  - eapply true_says. apply says_maybe with (Q := fun _ => True). intros v. eapply says_bind; [apply push_says|intros ?; apply says_ret; auto].
    intros [_ K]. apply text_ok. exact (Hs _ _ K).
  - intros [name|].
    + apply says_need_cb. intros v. apply cbdata_says.
    + eapply says_bind; [apply says_maybe_cb with (Q := fun _ => True)|].
      * intros v. eapply says_bind; [apply push_says; reflexivity|]. intros ?. apply cbdata_says.
      * intros [u|]; [apply says_ret; auto|]. apply says_need_cb. intros v.
        eapply says_bind; [apply push_says; reflexivity|]. intros ?. apply cbdata_says.
Qed.
Lemma client_first_says e plus P : says tv P header_ok (send_client_first e plus) (fun s => ok (ws_cb s)).
Proof.
  unfold send_client_first. eapply says_bind; [apply flag_says|]. intros ?.
  eapply says_bind; [apply push_says; reflexivity|]. intros ?.
  eapply says_bind with (Q := fun _ => True).
  { eapply true_says. apply says_maybe with (Q := fun _ => True). intros v. eapply says_bind; [apply push_says; reflexivity|]. intros ?.
    eapply says_bind; [apply esc_says|intros y; apply push_says; intros [_ K]; exact K].
    intros [[_ K] _]. apply text_ok. exact (Hs _ _ K). }
  intros ?. eapply says_bind; [apply push_says; reflexivity|]. intros ?.
  eapply says_bind; [apply says_need with (Q := fun y => ok y); intros v; apply esc_says; intros [_ K]; apply text_ok; exact (Hs _ _ K)|].
  intros user. eapply says_bind; [apply nonce_says|]. intros n. eapply says_bind; [apply says_getl|]. intros l.
  eapply says_bind; [apply says_vectored|intros ?; apply says_ret; intros _; apply encode_ok].
  intros [[[_ U] N] H]. unfold header_ok in H. texts.
Qed.
Lemma client_keys_says {L} e a salt it P (I : L -> Prop) : says tv P I (client_keys e a salt it) (fun _ => True).
Proof.
  unfold client_keys. say.
Qed.

Lemma exact_says {L} a x P (I : L -> Prop) : says tv P I (exact a x) (fun _ => True).
Proof. unfold exact. say. Qed.
Lemma server_nonce_ok input sf : ok input -> server_first_parse input = Ok sf -> ok (sf_nonce sf).
Proof.
  intros Hi E. destruct sf as [n sl it]. apply server_first_parse_exact in E. destruct E as [E _]. subst input.
  cbn [sf_nonce]. unfold server_first_text in Hi. rewrite utf8_app in Hi by reflexivity. change (lit ",s=") with (","%char :: lit "s=") in Hi.
  rewrite <- ?app_assoc in Hi. cbn [app] in Hi. exact (proj1 (utf8_cut n ","%char _ eq_refl Hi)).
Qed.
Lemma server_first_says {L} e a s i (I : L -> Prop) :
  says tv (ok i /\ ok (ws_cb s)) I (handle_server_first e a s i) (fun _ => True).
Proof.
  unfold handle_server_first. eapply says_bind with (Q := fun sf => ok i -> ok (sf_nonce sf)).
  { unfold scram_parse. apply says_of_res. intros sf _ E Hi. destruct (server_first_parse i) eqn:Ep; try discriminate.
    injection E as <-. exact (server_nonce_ok _ _ Hi Ep). }
  intros sf. destruct (strip_prefix (ws_nonce s) (sf_nonce sf)) as [[|b sn]|]; try apply says_fail.
  destruct (from_utf8 (sf_iterations sf)) as [it|]; [|apply says_fail].
  destruct (parse_u32 it) as [n|]; [|apply says_fail]. destruct (N.eqb n 0); [apply says_fail|].
  destruct (decode (sf_salt sf)) as [salt|]; [|apply says_fail].
  eapply says_bind; [apply client_keys_says|]. intros k. cbv zeta. eapply says_bind; [apply exact_says|]. intros pr.
  eapply says_bind; [apply says_vectored|intros ?; apply says_ret; auto].
  intros [[[[Hi Hc] Hn] _] _]. specialize (Hn Hi). unfold client_final_slices. cbn [cl_cb cl_nonce cl_proof]. texts. apply encode_ok.
Qed.
Definition waits_ok (st : option scram_cst) : Prop :=
  match st with Some (ScClientFirst s) => ok (ws_cb s) | _ => True end.
Lemma scram_client_says e a i : says tv (forall x, i = Some x -> utf8_text x) waits_ok (scram_client_step e a i) any.
Proof.
  unfold scram_client_step. eapply says_bind; [apply says_getl|]. intros st.
  eapply says_bind; [apply says_setl; exact (fun _ => Logic.I)|]. intros ?.
  destruct st as [[plus|s|s]|]; [| | |apply says_panic].
  - eapply says_bind; [apply says_locally with (I' := header_ok) (Q := fun s => ok (ws_cb s)); [reflexivity|apply client_first_says]|].
    intros [s l]. eapply says_bind; [apply says_setl|intros ?; apply says_ret; intros; exact Logic.I]. intros [_ K]. exact K.
  - destruct i as [i|]; [|apply says_fail].
    eapply says_bind; [eapply says_weaken; [|intros ? _ K; exact K|apply server_first_says]|].
    + intros [[Hi Hw] _]. split; [apply text_ok, Hi; reflexivity|exact Hw].
    + intros s'. eapply says_bind; [apply says_setl; exact (fun _ => Logic.I)|intros ?; apply says_ret; intros; exact Logic.I].
  - destruct i as [i|]; [|apply says_fail]. eapply says_bind with (Q := fun _ => True); [|intros ?; apply says_ret; intros; exact Logic.I].
    unfold handle_server_final. eapply says_bind with (Q := fun _ => True); [apply says_of_res; auto|]. intros [v|x]; [|apply says_fail].
    destruct (decode v); [|apply says_fail]. destruct (bytes_eqb _ _); [|apply says_fail].
    eapply says_ignore. apply says_action.
Qed.

Lemma fmt_ok n : ok (fmt_u32 n).
Proof.
  apply utf8_ascii. unfold fmt_u32. pose proof (fmt_fuel_chars (S (N.size_nat n)) n [] eq_refl) as H.
  rewrite forallb_forall in *. intros x Hx. specialize (H x Hx).
  clear Hx. revert H. destruct x as [[] [] [] [] [] [] [] []]; intros H; try discriminate H; reflexivity.
Qed.
Lemma client_nonce_ok i cf : client_first_parse i = Ok cf -> ok (cf_nonce cf).
Proof.
  intros H. apply utf8_ascii.
  assert (K : forallb nonce_char (cf_nonce cf) = true).
  { unfold client_first_parse, next_part, expect_attr, utf8_p, rbind in H.
    repeat (let E := fresh "E" in match type of H with context [match ?x with _ => _ end] => destruct x eqn:E; try discriminate H end).
    all: injection H as <-; assumption. }
  rewrite forallb_forall in *. intros x Hx. specialize (K x Hx).
  clear Hx. revert K. destruct x as [[] [] [] [] [] [] [] []]; intros K; try discriminate K; reflexivity.
Qed.
Lemma client_first_heard e a plus i P (I : bytes -> Prop) : (forall x, I x) ->
  says tv P I (handle_client_first e a plus i) (fun _ => True).
Proof.
  intros HI. unfold handle_client_first. eapply says_bind with (Q := fun cf => ok (cf_nonce cf)).
  { unfold scram_parse. apply says_of_res. intros cf _ E. destruct (client_first_parse i) eqn:Ep; try discriminate.
    injection E as <-. exact (client_nonce_ok _ _ Ep). }
  intros cf. eapply says_bind; [apply says_setl; auto|]. intros ?. cbv zeta.
  eapply says_bind with (Q := fun _ => True).
  { destruct (cf_cbflag cf) as [| |name]; [destruct plus; [apply says_fail|apply says_ret; auto]|apply says_ret; auto|].
    apply says_need_cb. intros d. eapply says_bind; [apply says_getl|]. intros h. apply says_setl. auto. }
  intros ?. eapply says_bind; [apply says_maybe with (Q := fun q => ok (fst (fst (fst q))) /\ ok (snd (fst (fst q))))|].
  { intros s. destruct (_ && _); [|apply says_fail]. apply says_ret. intros _. cbn. split; [apply fmt_ok|apply encode_ok]. }
  intros params. eapply says_bind; [apply nonce_says|]. intros sn. destruct params as [[[[it salt] sk] vk]|].
  - eapply says_bind; [apply says_vectored|].
    + intros [[[[[_ Hn] _] _] Hq] Hsn]. destruct (Hq _ eq_refl) as [H1 H2]. cbn in H1, H2. unfold server_first_slices. texts.
    + intros ?. eapply says_bind; [apply says_getl|]. intros ?. apply says_ret. auto.
  - eapply says_bind with (Q := fun _ => True); [unfold random_bytes; eapply says_bind; [apply says_draws|intros ?; apply says_ret; auto]|].
    intros salt. eapply says_bind; [apply says_vectored|intros ?; apply says_ret; auto].
    intros [[[[[[_ Hn] _] _] Hq] Hsn] _]. unfold server_first_slices. texts. apply encode_ok.
Qed.
Lemma final_says {L} m (P : Prop) (I : L -> Prop) : (P -> forall v, m = SfVerifier v -> ok v) -> says tv P I (send_final m) (fun _ => True).
Proof.
  intros H. unfold send_final. eapply says_bind; [apply says_vectored|intros ?; apply says_ret; auto].
  intros p. destruct m as [v|x]; cbn [server_final_slices concat].
  - apply ok_app; [reflexivity|]. apply ok_app; [eauto|reflexivity].
  - destruct x; reflexivity.
Qed.
Lemma client_final_heard {L} e a d i P (I : L -> Prop) : says tv P I (handle_client_final e a d i) (fun _ => True).
Proof.
  unfold handle_client_final. eapply says_bind with (Q := fun _ => True); [apply says_of_res; auto|]. intros cl.
  destruct d as [d|]; [|apply final_says; discriminate].
  destruct (decode (cl_cb cl)) as [cb|]; [|apply says_fail].
  destruct (negb _); [apply final_says; discriminate|].
  destruct (strip_prefix _ _) as [rm|]; [|apply final_says; discriminate].
  destruct (_ && _); [|apply final_says; discriminate].
  destruct (decode_slice _ _) as [pr|]; [|apply says_fail]. cbv zeta.
  eapply says_bind; [apply exact_says|]. intros ck. destruct (bytes_eqb _ _); [|apply final_says; discriminate].
  eapply says_bind; [apply final_says; intros _ v [= <-]; apply encode_ok|]. intros ?. apply says_validate.
Qed.
Lemma scram_server_says e a i : says tv True any (scram_server_step e a i) any.
Proof.
  unfold scram_server_step. eapply says_bind; [apply says_getl|]. intros st.
  eapply says_bind; [apply says_setl; exact (fun _ => Logic.I)|]. intros ?.
  destruct st as [[plus|d|]|]; [| |apply says_fail|apply says_panic]; (destruct i as [i|]; [|apply says_fail]).
  - eapply says_bind; [apply says_locally with (I' := any) (Q := fun _ => True); [intros; exact Logic.I|apply client_first_heard; intros; exact Logic.I]|].
    intros [d l]. eapply says_bind; [apply says_setl; intros; exact Logic.I|intros ?; apply says_ret; intros; exact Logic.I].
  - eapply says_bind; [apply client_final_heard|]. intros ?.
    eapply says_bind; [apply says_setl; intros; exact Logic.I|intros ?; apply says_ret; intros; exact Logic.I].
Qed.
End Mechs.

(** * Sessions *)

Definition pw_value (p : prop) : pval p -> Prop :=
  match p with PPassword => fun v : bytes => utf8_text v | _ => fun _ => True end.

Definition mech_waits (m : mech) : Prop :=
  match m with XScramC _ st => waits_ok st | _ => True end.

Lemma says_on {L} tv (P : Prop) (I : L -> Prop) (m : M L state) l wrap l0 (w : world) evs r l' w' :
  says tv P I m any -> P -> I l0 -> on wrap l0 m l w = (r, l', w') -> w_script w = [] -> w_out w = [] ->
  w_trace w' = w_trace w ++ evs -> fine tv evs -> ok (w_out w').
Proof.
  intros H p i E S0 O0 T F. specialize (H l0 w). unfold on in E. destruct (m l0 w) as [[r0 l1] w1].
  injection E as _ _ <-. destruct H as (evs' & o & T' & O & _ & K). rewrite T in T'. apply app_inv_head in T'. subst evs'.
  rewrite O, O0. apply (K p i F). exact S0.
Qed.

(** Servers whose only business is to validate. *)
Lemma plain_server_says tv e i : says tv True any (plain_server_step e i) any.
Proof. unfold plain_server_step. say. Qed.
Lemma external_server_says tv e i : says tv True any (external_server_step e i) any.
Proof. unfold external_server_step. say. Qed.
Lemma anonymous_server_says tv e i : says tv True any (anonymous_server_step e i) any.
Proof. unfold anonymous_server_step. say. Qed.

Lemma step_utters e s input r out s' evs :
  mech_waits (s_mech s) -> step e s input [] = (r, out, s') -> new_events s s' evs ->
  str_answers evs -> says_text e (s_mech s) input evs -> utf8_text out.
Proof.
  intros Hw H N A K. apply utf8_exact. unfold step, run in H.
  set (w := mk_world [] [] (s_trace s) (s_rng s) (s_val s)) in H.
  destruct (mech_step e input (s_mech s) w) as [[r0 m'] w'] eqn:E. injection H as _ <- <-.
  unfold new_events in N. cbn [s_trace] in N.
  unfold mech_step, bind, getl in E.
  destruct (s_mech s) as [| |st|st| | | | |st|st|st|st|a st|a st|st|st] eqn:Em; cbn [says_text mech_waits] in K, Hw; try contradiction.
  all: pose (tv2 := fun p (v : pval p) => str_value p v /\ pw_value p v).
  all: assert (F2 : text_passwords evs -> fine tv2 evs)
    by (intros K0 p v Hv; split; [exact (A p v Hv)|destruct p; try exact Logic.I; exact (K0 v Hv)]).
  all: assert (H2 : forall p v, tv2 p v -> str_value p v) by (intros p v [Q _]; exact Q).
  all: assert (P2 : forall v, tv2 PPassword v -> utf8_text v) by (intros v [_ Q]; exact Q).
  all: assert (H1 : forall p v, str_value p v -> str_value p v) by auto.
  - exact (says_on tv2 _ _ _ _ _ _ w evs _ _ _ (plain_says tv2 H2 e input P2) Logic.I Logic.I E eq_refl eq_refl N (F2 K)).
  - exact (says_on str_value _ _ _ _ _ _ w evs _ _ _ (plain_server_says str_value e input) Logic.I Logic.I E eq_refl eq_refl N A).
  - exact (says_on tv2 _ _ _ _ _ _ w evs _ _ _ (login_client_says tv2 H2 e input P2) Logic.I Logic.I E eq_refl eq_refl N (F2 K)).
  - exact (says_on str_value _ _ _ _ _ _ w evs _ _ _ (login_server_says str_value e input) Logic.I Logic.I E eq_refl eq_refl N A).
  - exact (says_on str_value _ _ _ _ _ _ w evs _ _ _ (external_client_says str_value H1 e input) Logic.I Logic.I E eq_refl eq_refl N A).
  - exact (says_on str_value _ _ _ _ _ _ w evs _ _ _ (external_server_says str_value e input) Logic.I Logic.I E eq_refl eq_refl N A).
  - exact (says_on str_value _ _ _ _ _ _ w evs _ _ _ (anonymous_client_says str_value H1 e input) Logic.I Logic.I E eq_refl eq_refl N A).
  - exact (says_on str_value _ _ _ _ _ _ w evs _ _ _ (anonymous_server_says str_value e input) Logic.I Logic.I E eq_refl eq_refl N A).
  - exact (says_on str_value _ _ _ _ _ _ w evs _ _ _ (xoauth2_client_says str_value H1 e input) Logic.I Logic.I E eq_refl eq_refl N A).
  - exact (says_on str_value _ _ _ _ _ _ w evs _ _ _ (xoauth2_server_says str_value H1 e input) Logic.I Logic.I E eq_refl eq_refl N A).
  - exact (says_on str_value _ _ _ _ _ _ w evs _ _ _ (oauthbearer_client_says str_value H1 e input) Logic.I Logic.I E eq_refl eq_refl N A).
  - exact (says_on str_value _ _ _ _ _ _ w evs _ _ _ (oauthbearer_server_says str_value H1 e input K) Logic.I Logic.I E eq_refl eq_refl N A).
  - exact (says_on str_value _ _ _ _ _ _ w evs _ _ _ (scram_client_says str_value H1 e a input) K Hw E eq_refl eq_refl N A).
  - exact (says_on str_value _ _ _ _ _ _ w evs _ _ _ (scram_server_says str_value e a input) Logic.I Logic.I E eq_refl eq_refl N A).
Qed.

(** What a SCRAM client remembers to send back is base64. *)
Definition post {L A} (m : M L A) (Q : A -> Prop) : Prop := forall l w a l' w', m l w = (Ok a, l', w') -> Q a.
Lemma post_bind {L A B} (m : M L A) (f : A -> M L B) Q : (forall a, post (f a) Q) -> post (bind m f) Q.
Proof.
  intros H l w b l' w'. unfold bind. destruct (m l w) as [[[a|x|] l1] w1]; try discriminate. apply H.
Qed.
Lemma first_base64 e plus : post (send_client_first e plus) (fun s => ok (ws_cb s)).
Proof.
  unfold send_client_first. repeat (apply post_bind; intros ?).
  intros l0 w s l' w' [= <- _ _]. apply encode_ok.
Qed.
Lemma step_waits e s input script r out s' :
  mech_waits (s_mech s) -> step e s input script = (r, out, s') -> mech_waits (s_mech s').
Proof.
  intros Hw H.
  assert (Hc : forall a st, s_mech s = XScramC a st -> exists w, s_mech s' = XScramC a (snd (fst (scram_client_step e a input st w)))).
  { intros a st Em. destruct (step_mech e s a st input script Em) as [w K]. rewrite H in K. exists w. exact K. }
  destruct (s_mech s) as [| |st|st| | | | |st|st|st|st|a st|a st|st|st] eqn:Em.
  13:{ destruct (Hc a st eq_refl) as [w ->]. cbn [mech_waits].
    destruct st as [[plus|q|q]|].
    2-4: match goal with |- waits_ok ?x => assert (P : past x) by (apply client_step_past; intros ? ?; discriminate) end.
    2-4: destruct (snd (fst (scram_client_step e a input _ w))) as [[|q1|q1]|]; try exact Logic.I; contradiction.
    unfold scram_client_step, bind, getl, setl, locally.
    destruct (send_client_first e plus ([], None) w) as [[[q|x|] l2] w2] eqn:E2; try exact Logic.I.
    exact (first_base64 _ _ _ _ _ _ _ E2). }
  all: clear Hc; unfold step, run in H; rewrite Em in H; unfold mech_step, bind, getl, on in H;
    repeat match type of H with context [match ?x with _ => _ end] =>
      lazymatch x with context [match _ with _ => _ end] => fail | _ => destruct x as [[? ?] ?] end end;
    injection H as _ _ <-; exact Logic.I.
Qed.

(** Servers, but not of GSSAPI. *)
Definition answers_text (m : mech) : Prop :=
  match m with
  | XPlainS | XLoginS _ | XExternalS | XAnonymousS | XXOAuth2S _ | XOAuthBearerS _ | XScramS _ _ => True
  | _ => False
  end.
Lemma step_answers e s input script r out s' :
  answers_text (s_mech s) -> step e s input script = (r, out, s') -> answers_text (s_mech s').
Proof.
  intros Hw H. destruct (s_mech s) as [| |st|st| | | | |st|st|st|st|a st|a st|st|st] eqn:Em; try contradiction.
  all: unfold step, run in H; rewrite Em in H; unfold mech_step, bind, getl, on in H;
    repeat match type of H with context [match ?x with _ => _ end] =>
      lazymatch x with context [match _ with _ => _ end] => fail | _ => destruct x as [[? ?] ?] end end;
    injection H as _ _ <-; exact Logic.I.
Qed.

Theorem history_utters e s n s1 input r out s2 evs :
  mech_waits (s_mech s) -> history e s n s1 -> step e s1 input [] = (r, out, s2) -> new_events s1 s2 evs ->
  str_answers evs -> says_text e (s_mech s1) input evs -> utf8_text out.
Proof.
  intros H0 Hh H N A K.
  assert (H1 : mech_waits (s_mech s1)).
  { clear H N K. induction Hh as [|k sa i sc o sb _ IH E|k sa i sc r1 o sb _ IH E _]; [exact H0|..]; exact (step_waits _ _ _ _ _ _ _ IH E). }
  exact (step_utters _ _ _ _ _ _ _ H1 H N A K).
Qed.

Theorem server_utters e reg name m s n s1 input r out s2 evs :
  json_text e -> server_start reg name = Ok (Builtin (s_mech s), m) -> m <> DGssapi ->
  history e s n s1 -> step e s1 input [] = (r, out, s2) -> new_events s1 s2 evs ->
  str_answers evs -> utf8_text out.
Proof.
  intros Hj Hst Hg Hh H N A.
  assert (H0 : answers_text (s_mech s)).
  { apply server_exact in Hst. destruct Hst as [_ Hf]. remember (s_mech s) as ms. clear - Hf Hg. inversion Hf; subst; try exact Logic.I. congruence. }
  assert (H1 : answers_text (s_mech s1)).
  { clear H N. induction Hh as [|k sa i sc o sb _ IH E|k sa i sc r1 o sb _ IH E _]; [exact H0|..]; exact (step_answers _ _ _ _ _ _ _ IH E). }
  apply (history_utters e s n s1 input r out s2 evs); try assumption.
  - destruct (s_mech s); try contradiction; exact Logic.I.
  - destruct (s_mech s1); try contradiction; (exact Logic.I || exact Hj).
Qed.

Theorem client_utters e reg cb prefer offered m s n s1 input r out s2 evs :
  client_start reg cb prefer offered = Ok (Builtin (s_mech s), m) ->
  history e s n s1 -> step e s1 input [] = (r, out, s2) -> new_events s1 s2 evs ->
  str_answers evs -> says_text e (s_mech s1) input evs -> utf8_text out.
Proof.
  intros Hst Hh H N A K. apply start_inv in Hst. destruct Hst as (_ & _ & Hf & _).
  apply (history_utters e s n s1 input r out s2 evs); try assumption.
  remember (s_mech s) as ms. clear - Hf. inversion Hf; subst; exact Logic.I.
Qed.

(** Deciding [str_answers], for examples. *)
Definition str_valueb (p : prop) : pval p -> bool :=
  match p with
  | PAuthId | PAuthzId | PAnonymousToken | POAuthBearerToken | POverrideCBType => fun v : bytes => utf8_valid v
  | POAuthBearerKV => forallb (fun kv : bytes * bytes => utf8_valid (fst kv) && utf8_valid (snd kv))
  | PXOAuth2Validate => fun r => match r with Some x => utf8_valid x | None => true end
  | POAuthBearerValidate => fun r => match r with
      | Some o => utf8_valid (ob_status o) && utf8_valid (match ob_scope o with Some x => x | None => [] end)
                  && utf8_valid (match ob_openid o with Some x => x | None => [] end)
      | None => true end
  | _ => fun _ => true
  end.
Lemma str_decided evs :
  forallb (fun ev => match ev with EvAnswer p v => str_valueb p v | _ => true end) evs = true -> str_answers evs.
Proof.
  intros H p v Hv. rewrite forallb_forall in H. specialize (H _ Hv). cbn in H. clear Hv.
  destruct p; try exact Logic.I; try (apply utf8_exact; exact H); cbn in *.
  - intros k x Hx. rewrite forallb_forall in H. specialize (H _ Hx). cbn in H. apply Bool.andb_true_iff in H.
    split; apply utf8_exact; tauto.
  - intros o ->. apply Bool.andb_true_iff in H. destruct H as [H H3]. apply Bool.andb_true_iff in H. destruct H as [H1 H2].
    split; [apply utf8_exact; exact H1|]. split; intros x E; rewrite E in *; apply utf8_exact; assumption.
  - intros x ->. apply utf8_exact. exact H.
Qed.
Lemma pw_decided evs :
  forallb (fun ev => match ev with EvAnswer PPassword v => utf8_valid v | _ => true end) evs = true -> text_passwords evs.
Proof. intros H v Hv. rewrite forallb_forall in H. specialize (H _ Hv). apply utf8_exact. exact H. Qed.
