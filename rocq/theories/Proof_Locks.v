(** Callbacks are not called recursively (C121). *)
From Verif Require Import Bytes BytesFacts Types World CallbackSpec WorldFacts Simple OAuth
  ScramParser Scram Gssapi Session Frame Proof_Abort Spec_Flow Spec_Locks.
Open Scope m_scope.

Lemma lock_app l1 : forall h l2, lock h (l1 ++ l2) = match lock h l1 with Some h' => lock h' l2 | None => None end.
Proof.
  induction l1 as [|[] l1 IH]; intros h l2; cbn [lock app]; try (apply IH); try reflexivity;
    destruct h; try reflexivity; apply IH.
Qed.

Definition orderly {L A} (m : M L A) : Prop :=
  forall l w, lock false (w_trace w) = Some false ->
  match m l w with
  | (r, _, w') => match r with Panic => exists h, lock false (w_trace w') = Some h
                  | _ => lock false (w_trace w') = Some false end
  end.

Lemma orderly_silent {L A} (m : M L A) : keeps silent m -> orderly m.
Proof.
  intros H l w K. specialize (H l w). destruct (m l w) as [[r l1] w1]. unfold silent in H. rewrite H.
  destruct r; [exact K|exact K|exists false; exact K].
Qed.
Lemma orderly_bind {L A B} (m : M L A) (f : A -> M L B) :
  orderly m -> (forall a, orderly (f a)) -> orderly (bind m f).
Proof.
  intros Hm Hf l w K. unfold bind. specialize (Hm l w K).
  destruct (m l w) as [[[a|y|] l1] w1]; [exact (Hf a l1 w1 Hm)|exact Hm|exact Hm].
Qed.
Lemma orderly_locally {L L' A} (l0 : L') (m : M L' A) : orderly m -> orderly (@locally L L' A l0 m).
Proof.
  intros Hm l w K. unfold locally. specialize (Hm l0 w K). destruct (m l0 w) as [[[a|y|] l1] w1]; exact Hm.
Qed.
Lemma orderly_on {L A} (wrap : L -> mech) l0 (m : M L A) : orderly m -> orderly (on wrap l0 m).
Proof.
  intros Hm l w K. unfold on. specialize (Hm l0 w K). destruct (m l0 w) as [[r l1] w1]. exact Hm.
Qed.
Lemma orderly_ignore {L A} (m : M L A) : orderly m -> orderly (ignore m).
Proof.
  intros Hm l w K. unfold ignore. specialize (Hm l w K). destruct (m l w) as [[[a|y|] l1] w1]; exact Hm.
Qed.
Lemma orderly_chan {L} name : orderly (@log L (EvChan name)).
Proof. intros l w K. cbn. rewrite lock_app, K. reflexivity. Qed.
Lemma orderly_validate {L} e c : orderly (@validate L e c).
Proof.
  intros l w K. unfold validate. destruct (run_validate _ _ _) as [[v|] slot]; cbn [w_trace]; rewrite lock_app, K; reflexivity.
Qed.
Lemma lock_taken q evs h : Forall (fun ev => ev = EvTaken q) evs -> lock h evs = Some h.
Proof. induction 1 as [|ev l -> F IH]; [reflexivity|exact IH]. Qed.
Lemma orderly_action {L} e q c v : orderly (@action L e q c v).
Proof.
  intros l w K. unfold action.
  pose proof (run_action_taken q (e_cb e (w_trace w) (e_sd e) c (RAction q)) (Some v)
    (w_trace w ++ [EvAction q v c])) as [evs [Hf Ev]].
  destruct (run_action _ _ _ _) as [[r slot] tr]. simpl in Ev.
  assert (T : lock false tr = Some false).
  { rewrite Ev, lock_app, lock_app, K. cbn. apply (lock_taken q), Hf. }
  destruct (mask_early r); [exact T|]. destruct slot; exact T.
Qed.

(** A callback of such an application. *)
Lemma run_locking {L G} q (f : pval q -> M L G) p : (forall v, keeps silent (f v)) -> releases q p ->
  forall st l w, lock false (w_trace w) = Some true ->
  match run_satisfy q f p st l w with
  | (r, _, _, w') => match r with Panic => lock false (w_trace w') = Some true
                     | _ => lock false (w_trace w') = Some false end
  end.
Proof.
  intros Hf R. induction R as [x r|p v k R IH|p k R IH|p k R IH]; intros st l w K; cbn [run_satisfy].
  - destruct (prop_eq_dec q q) as [_|N]; [|destruct (N eq_refl)]. cbn. rewrite lock_app, K. reflexivity.
  - destruct (castp v) as [v'|]; [|apply IH, K].
    unfold cr_satisfy. destruct st; [|apply IH, K..].
    assert (S : match (log (EvAnswer q v') ;;; f v') l w with (_, _, w') => lock false (w_trace w') = Some true end).
    { unfold bind, log. specialize (Hf v' l (add_event (EvAnswer q v') w)).
      destruct (f v' l (add_event (EvAnswer q v') w)) as [[r1 l1] w1]. unfold silent in Hf. rewrite Hf. cbn.
      rewrite lock_app, K. reflexivity. }
    destruct ((log (EvAnswer q v') ;;; f v') l w) as [[[g|y|] l1] w1]; [apply IH, S|apply IH, S|exact S].
  - apply IH, K.
  - apply IH, K.
Qed.
Section Locks.
Context (e : env) (A : locking e).
Lemma orderly_maybe_need_with {L G} q c (f : pval q -> M L G) :
  (forall v, keeps silent (f v)) -> orderly (maybe_need_with e q c f).
Proof.
  intros Hf l w K. unfold maybe_need_with.
  assert (K0 : lock false (w_trace (add_event (EvRequest q c) w)) = Some true)
    by (cbn; rewrite lock_app, K; reflexivity).
  pose proof (run_locking q f _ Hf (A (w_trace w) c q) CrOpen l _ K0) as H.
  destruct (run_satisfy q f _ CrOpen l (add_event (EvRequest q c) w)) as [[[[r|x|] st] l1] w1].
  - destruct (mask_early r) as [[]|]; exact H.
  - exact H.
  - exists true. exact H.
Qed.
Lemma orderly_need_with {L G} q c (f : pval q -> M L G) :
  (forall v, keeps silent (f v)) -> orderly (need_with e q c f).
Proof.
  intros Hf. unfold need_with. apply orderly_bind; [apply orderly_maybe_need_with, Hf|].
  intros [g|]; apply orderly_silent; [apply (keeps_ret _ silent_frame)|apply (keeps_fail _ silent_frame)].
Qed.
Lemma orderly_maybe_need_cb_data {L G} name c (f : bytes -> M L G) :
  (forall v, keeps silent (f v)) -> orderly (maybe_need_cb_data e name c f).
Proof.
  intros Hf. unfold maybe_need_cb_data. apply orderly_bind; [apply orderly_chan|].
  intros _. destruct (e_chan e name).
  - apply orderly_silent. apply (keeps_bind _ silent_frame); [apply Hf|].
    intros; apply (keeps_ret _ silent_frame).
  - apply orderly_maybe_need_with. exact Hf.
Qed.
Lemma orderly_need_cb_data {L G} name c (f : bytes -> M L G) :
  (forall v, keeps silent (f v)) -> orderly (need_cb_data e name c f).
Proof.
  intros Hf. unfold need_cb_data. apply orderly_bind; [apply orderly_maybe_need_cb_data, Hf|].
  intros [g|]; apply orderly_silent; [apply (keeps_ret _ silent_frame)|apply (keeps_fail _ silent_frame)].
Qed.
End Locks.

Ltac orderly_step A :=
  lazymatch goal with
  | |- orderly (bind _ _) => apply orderly_bind; [|intros ?]
  | |- orderly (locally _ _) => apply orderly_locally
  | |- orderly (ignore _) => apply orderly_ignore
  | |- orderly (on _ _ _) => apply orderly_on
  | |- orderly (need_with _ _ _ _) => apply (orderly_need_with _ A); intros ?
  | |- orderly (maybe_need_with _ _ _ _) => apply (orderly_maybe_need_with _ A); intros ?
  | |- orderly (need_cb_data _ _ _ _) => apply (orderly_need_cb_data _ A); intros ?
  | |- orderly (maybe_need_cb_data _ _ _ _) => apply (orderly_maybe_need_cb_data _ A); intros ?
  | |- orderly (action _ _ _ _) => apply orderly_action
  | |- orderly (validate _ _) => apply orderly_validate
  | |- orderly (match ?x with _ => _ end) => destruct x
  | |- orderly (scram_parse _) => unfold scram_parse
  | |- orderly (scram_proto _) => unfold scram_proto
  | |- orderly (exact _ _) => unfold exact
  | |- orderly (gss_try _) => unfold gss_try
  | |- orderly gss_err => unfold gss_err
  | |- orderly _ => apply orderly_silent
  end.

Lemma step_orderly e input : locking e -> orderly (mech_step e input).
Proof.
  intros A. pose proof silent_frame as F. unfold mech_step.
  apply orderly_bind; [apply orderly_silent, (keeps_getl _ F)|]. intros m.
  destruct m; unfold_steps;
  repeat (first [ orderly_step A | keep_step F | apply silent_writes | apply silent_draws ]).
Qed.

Theorem step_unlocked e s input script r out s' : locking e -> lock false (s_trace s) = Some false ->
  step e s input script = (r, out, s') ->
  exists h, lock false (s_trace s') = Some h /\ (r <> Panic -> h = false).
Proof.
  intros A K H. unfold step, run in H.
  pose proof (step_orderly e input A (s_mech s) (mk_world [] script (s_trace s) (s_rng s) (s_val s)) K) as O.
  destruct (mech_step e input _ _) as [[r1 m1] w1]. injection H as <- <- <-. cbn [s_trace].
  destruct r1; [exists false; auto|exists false; auto|]. destruct O as [h O]. exists h. split; [exact O|congruence].
Qed.
Theorem dialogue_unlocked e : locking e -> forall l s, lock false (s_trace s) = Some false ->
  Forall (fun y => fst y <> Panic) (dialogue e s l) ->
  lock false (s_trace (after e s l)) = Some false.
Proof.
  intros A. induction l as [|[input script] l IH]; intros s K F; [exact K|].
  cbn [dialogue after] in *. destruct (step e s input script) as [[r out] s'] eqn:E. cbn [snd].
  inversion F as [|? ? N F']; subst. apply IH; [|exact F'].
  destruct (step_unlocked _ _ _ _ _ _ _ A K E) as (h & -> & Hh). rewrite (Hh N). reflexivity.
Qed.
