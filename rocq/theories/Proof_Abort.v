(** Errors of the application end the exchange (C91). *)
From Verif Require Import Bytes BytesFacts Types World CallbackSpec WorldFacts Simple OAuth
  ScramParser Scram Gssapi Session Frame Spec_Abort.
Open Scope m_scope.

(** Consumers of answers cause no events. *)
Definition silent (w w' : world) : Prop := w_trace w' = w_trace w.
Lemma silent_frame : frame silent.
Proof. split; unfold silent; intros; congruence. Qed.
Lemma silent_writes : writes silent.
Proof. intros p w w' H. apply H. Qed.

Section Aborts.
Context (e : env).

Definition obeys (tr evs : list event) {A} (r : res serr A) : Prop :=
  forall pre ev post x, evs = pre ++ ev :: post -> fatal e (tr ++ pre) ev x ->
    ~ offers_keys ev -> r = Err x /\ only_calls post.

Definition aborts {L A} (m : M L A) : Prop :=
  forall l w, match m l w with
  | (r, _, w') => exists evs, w_trace w' = w_trace w ++ evs /\ obeys (w_trace w) evs r
  end.

Lemma obeys_nil {A} tr (r : res serr A) : obeys tr [] r.
Proof. intros pre ev post x E. destruct pre; discriminate. Qed.

Lemma aborts_silent {L A} (m : M L A) : keeps silent m -> aborts m.
Proof.
  intros H l w. specialize (H l w). destruct (m l w) as [[r l1] w1].
  exists []. rewrite app_nil_r. split; [exact H|apply obeys_nil].
Qed.

Lemma aborts_bind {L A B} (m : M L A) (f : A -> M L B) :
  aborts m -> (forall a, aborts (f a)) -> aborts (bind m f).
Proof.
  intros Hm Hf l w. unfold bind. specialize (Hm l w).
  destruct (m l w) as [[[a|y|] l1] w1]; destruct Hm as [e1 [T1 O1]].
  - specialize (Hf a l1 w1). destruct (f a l1 w1) as [[r l2] w2]. destruct Hf as [e2 [T2 O2]].
    exists (e1 ++ e2). split; [rewrite T2, T1, app_assoc; reflexivity|].
    intros pre ev post x E Hx Hk. symmetry in E.
    destruct (app_eq_app _ _ _ _ E) as [u [[E1 E2]|[E1 E2]]].
    + subst pre. rewrite app_assoc, <- T1 in Hx. symmetry in E2. eapply O2; eauto.
    + destruct u as [|ev' u]; simpl in E2.
      * rewrite app_nil_r in E1. subst e1. rewrite <- T1 in Hx.
        apply (O2 [] ev post x); auto. rewrite app_nil_r. exact Hx.
      * injection E2 as <- E2. destruct (O1 _ _ _ _ E1 Hx Hk). discriminate.
  - exists e1. split; [exact T1|]. intros pre ev post x E Hx Hk.
    destruct (O1 _ _ _ _ E Hx Hk) as [[= ->] Hp]. auto.
  - exists e1. split; [exact T1|]. intros pre ev post x E Hx Hk.
    destruct (O1 _ _ _ _ E Hx Hk). discriminate.
Qed.
Lemma aborts_locally {L L' A} (l0 : L') (m : M L' A) : aborts m -> aborts (@locally L L' A l0 m).
Proof.
  intros Hm l w. unfold locally. specialize (Hm l0 w).
  destruct (m l0 w) as [[[a|y|] l1] w1]; destruct Hm as [e1 [T1 O1]]; exists e1;
    (split; [exact T1|]); intros pre ev post x E Hx Hk;
    destruct (O1 _ _ _ _ E Hx Hk) as [Hr Hp]; try discriminate. injection Hr as ->. auto.
Qed.
Lemma aborts_on {L A} (wrap : L -> mech) l0 (m : M L A) : aborts m -> aborts (on wrap l0 m).
Proof.
  intros Hm l w. unfold on. specialize (Hm l0 w). destruct (m l0 w) as [[r l1] w1]. exact Hm.
Qed.
Lemma aborts_log {L} ev : (forall tr x, ~ fatal e tr ev x) -> aborts (@log L ev).
Proof.
  intros H l w. exists [ev]. split; [reflexivity|]. intros pre ev' post x E Hx Hk.
  destruct pre as [|p [|]]; try discriminate. injection E as <- <-. destruct (H _ _ Hx).
Qed.

Lemma closures_calls cs : only_closures cs -> only_calls cs.
Proof. apply Forall_impl. intros []; tauto. Qed.

(** Events of a request after the request itself are not fatal. *)
Lemma tame_obeys {A} tr q c cs (r : res serr A) :
  Forall (fun ev => forall tr x, ~ fatal e tr ev x) cs ->
  (forall x, fatal e tr (EvRequest q c) x -> r = Err x /\ only_calls cs) ->
  obeys tr (EvRequest q c :: cs) r.
Proof.
  intros Hc H pre ev post x E Hx Hk. destruct pre as [|p pre]; injection E as <- E.
  - subst cs. rewrite app_nil_r in Hx. apply H, Hx.
  - exfalso. subst cs. apply Forall_app in Hc. destruct Hc as [_ Hc].
    inversion Hc as [|? ? K _]. exact (K _ _ Hx).
Qed.
Lemma closures_tame cs : only_closures cs -> Forall (fun ev => forall tr x, ~ fatal e tr ev x) cs.
Proof. apply Forall_impl. intros []; simpl; tauto. Qed.

Lemma aborts_maybe_need_with {L G} q c (f : pval q -> M L G) :
  (forall v, keeps silent (f v)) -> aborts (maybe_need_with e q c f).
Proof.
  intros Hf l w. destruct (maybe_need_with e q c f l w) as [[r l'] w'] eqn:E.
  assert (T : exists cs, w_trace w' = w_trace w ++ EvRequest q c :: cs /\
     Forall (fun ev => forall tr x, ~ fatal e tr ev x) cs).
  { apply maybe_need_with_inv in E.
    assert (Hv : forall v cs1 cs2, only_closures cs1 -> only_closures cs2 ->
      Forall (fun ev => forall tr x, ~ fatal e tr ev x) (cs1 ++ EvAnswer q v :: cs2)).
    { intros v cs1 cs2 H1 H2. apply Forall_app. split; [apply closures_tame, H1|].
      constructor; [simpl; tauto|apply closures_tame, H2]. }
    destruct E as [cs r Hc Hr|v cs1 cs2 g r l1 w1 H1 H2 Ef Hr|v cs1 cs2 x r l1 w1 H1 H2 Ef Hr
                |v cs1 l1 w1 H1 Ef].
    - exists cs. split; [reflexivity|apply closures_tame, Hc].
    - exists (cs1 ++ EvAnswer q v :: cs2). split; [|apply Hv; assumption].
      pose proof (Hf v l (add_events (EvRequest q c :: cs1 ++ [EvAnswer q v]) w)) as K.
      rewrite Ef in K. unfold silent in K. cbn in *. rewrite K, <- !app_assoc. cbn.
      rewrite <- app_assoc. reflexivity.
    - exists (cs1 ++ EvAnswer q v :: cs2). split; [|apply Hv; assumption].
      pose proof (Hf v l (add_events (EvRequest q c :: cs1 ++ [EvAnswer q v]) w)) as K.
      rewrite Ef in K. unfold silent in K. cbn in *. rewrite K, <- !app_assoc. cbn.
      rewrite <- app_assoc. reflexivity.
    - exists (cs1 ++ EvAnswer q v :: []). split; [|apply Hv; [assumption|constructor]].
      pose proof (Hf v l (add_events (EvRequest q c :: cs1 ++ [EvAnswer q v]) w)) as K.
      rewrite Ef in K. unfold silent in K. cbn in *. rewrite K. reflexivity. }
  destruct T as [cs [T Hc]]. exists (EvRequest q c :: cs). split; [exact T|].
  apply tame_obeys; [exact Hc|]. intros x [Hb [Ha [N1 N2]]].
  destruct (maybe_need_with_bubbling e q c f l w Hb) as [cs' [Hc' E']].
  rewrite Ha, E in E'. injection E' as -> -> ->.
  cbn in T. apply app_inv_head in T. injection T as <-.
  split; [destruct x; cbn; congruence|apply closures_calls, Hc'].
Qed.
Lemma aborts_need_with {L G} q c (f : pval q -> M L G) :
  (forall v, keeps silent (f v)) -> aborts (need_with e q c f).
Proof.
  intros Hf. unfold need_with. apply aborts_bind; [apply aborts_maybe_need_with, Hf|].
  intros [g|]; apply aborts_silent; [apply (keeps_ret _ silent_frame)|apply (keeps_fail _ silent_frame)].
Qed.
Lemma aborts_maybe_need_cb_data {L G} name c (f : bytes -> M L G) :
  (forall v, keeps silent (f v)) -> aborts (maybe_need_cb_data e name c f).
Proof.
  intros Hf. unfold maybe_need_cb_data. apply aborts_bind; [apply aborts_log; simpl; tauto|].
  intros _. destruct (e_chan e name).
  - apply aborts_silent. apply (keeps_bind _ silent_frame); [apply Hf|].
    intros; apply (keeps_ret _ silent_frame).
  - apply aborts_maybe_need_with. exact Hf.
Qed.
Lemma aborts_need_cb_data {L G} name c (f : bytes -> M L G) :
  (forall v, keeps silent (f v)) -> aborts (need_cb_data e name c f).
Proof.
  intros Hf. unfold need_cb_data. apply aborts_bind; [apply aborts_maybe_need_cb_data, Hf|].
  intros [g|]; apply aborts_silent; [apply (keeps_ret _ silent_frame)|apply (keeps_fail _ silent_frame)].
Qed.

Lemma run_action_insists q p slot tr x :
  insists p x -> fst (fst (run_action q p slot tr)) = Some x.
Proof.
  revert slot tr. induction p as [r|p v k IH|p c k IH|p k IH|p k IH]; intros slot tr H;
    cbn [run_action insists] in *; auto.
  destruct (prop_eq_dec p q); [destruct slot|]; auto.
Qed.

Lemma taken_tame q evs : Forall (fun ev => ev = EvTaken q) evs ->
  only_calls evs /\ Forall (fun ev => forall tr x, ~ fatal e tr ev x) evs.
Proof.
  intros H. split; revert H; apply Forall_impl; intros ev ->; simpl; tauto.
Qed.

Lemma aborts_action {L} q c v : aborts (@action L e q c v).
Proof.
  intros l w. unfold action.
  pose proof (run_action_taken q (e_cb e (w_trace w) (e_sd e) c (RAction q)) (Some v)
    (w_trace w ++ [EvAction q v c])) as [evs [Hf Ev]].
  pose proof (fun x => run_action_insists q (e_cb e (w_trace w) (e_sd e) c (RAction q)) (Some v)
    (w_trace w ++ [EvAction q v c]) x) as Hi.
  destruct (run_action _ _ _ _) as [[r slot] tr]. simpl in Ev, Hi.
  destruct (taken_tame q evs Hf) as [Hc Ht].
  assert (O : forall A (rr : res serr A),
    (forall x, r = Some x -> x <> ECbEarlyReturn -> rr = Err x) ->
    obeys (w_trace w) (EvAction q v c :: evs) rr).
  { intros A rr Hr pre ev post x E Hx Hk. destruct pre as [|p pre]; injection E as <- E.
    - subst evs. rewrite app_nil_r in Hx. destruct Hx as [Hx [_ N]]. split; [|exact Hc].
      apply Hr; auto.
    - exfalso. subst evs. apply Forall_app in Ht. destruct Ht as [_ Ht].
      inversion Ht as [|? ? K _]. exact (K _ _ Hx). }
  assert (T : tr = w_trace w ++ EvAction q v c :: evs) by (rewrite Ev, <- app_assoc; reflexivity).
  destruct r as [y|]; [destruct (mask_early (Some y)) as [z|] eqn:M|].
  - cbn in M. assert (z = y) as -> by (destruct y; congruence).
    exists (EvAction q v c :: evs). split; [exact T|]. apply O. intros x [= <-] _. reflexivity.
  - assert (y = ECbEarlyReturn) as -> by (destruct y; cbn in M; congruence).
    destruct slot; exists (EvAction q v c :: evs); (split; [exact T|]); apply O;
      intros x [= <-] N; congruence.
  - cbn. destruct slot; exists (EvAction q v c :: evs); (split; [exact T|]); apply O; discriminate.
Qed.
Lemma aborts_ignore {L} c v : aborts (@ignore L unit (action e PScramCachedPassword c v)).
Proof.
  intros l w. unfold ignore.
  pose proof (run_action_taken PScramCachedPassword
    (e_cb e (w_trace w) (e_sd e) c (RAction PScramCachedPassword)) (Some v)
    (w_trace w ++ [EvAction PScramCachedPassword v c])) as [evs [Hf Ev]].
  assert (O : forall A (rr : res serr A),
     obeys (w_trace w) (EvAction PScramCachedPassword v c :: evs) rr).
  { destruct (taken_tame _ evs Hf) as [Hc Ht].
    intros A rr pre ev post x E Hx Hk. destruct pre as [|p pre]; injection E as <- E.
    - destruct Hk. exact I.
    - exfalso. subst evs. apply Forall_app in Ht. destruct Ht as [_ Ht].
      inversion Ht as [|? ? K _]. exact (K _ _ Hx). }
  unfold action. destruct (run_action _ _ _ _) as [[r slot] tr]. simpl in Ev.
  assert (T : tr = w_trace w ++ EvAction PScramCachedPassword v c :: evs)
    by (rewrite Ev, <- app_assoc; reflexivity).
  destruct (mask_early r); [|destruct slot];
    exists (EvAction PScramCachedPassword v c :: evs); (split; [exact T|]); apply O.
Qed.
Lemma aborts_validate {L} c : aborts (@validate L e c).
Proof.
  intros l w. unfold validate.
  destruct (run_validate (e_vtag e) (e_vcb e (w_trace w) (e_sd e) c) (w_val w)) as [r slot] eqn:E.
  assert (O : forall A (rr : res serr A), (forall v, r = Some v -> rr = Err (EValidation v)) ->
     obeys (w_trace w) [EvValidate c] rr).
  { intros A rr Hr pre ev post x E1 Hx Hk. destruct pre as [|p [|]]; try discriminate.
    injection E1 as <- <-. rewrite app_nil_r in Hx. destruct Hx as [v [-> Hv]].
    specialize (Hv (w_val w)). rewrite E in Hv. split; [apply Hr, Hv|constructor]. }
  destruct r as [v|]; exists [EvValidate c]; (split; [reflexivity|]); apply O.
  - intros v' [= <-]. reflexivity.
  - discriminate.
Qed.
End Aborts.

Ltac abort_step :=
  lazymatch goal with
  | |- aborts _ (bind _ _) => apply aborts_bind; [|intros ?]
  | |- aborts _ (locally _ _) => apply aborts_locally
  | |- aborts _ (ignore _) => apply aborts_ignore
  | |- aborts _ (on _ _ _) => apply aborts_on
  | |- aborts _ (need_with _ _ _ _) => apply aborts_need_with; intros ?
  | |- aborts _ (maybe_need_with _ _ _ _) => apply aborts_maybe_need_with; intros ?
  | |- aborts _ (need_cb_data _ _ _ _) => apply aborts_need_cb_data; intros ?
  | |- aborts _ (maybe_need_cb_data _ _ _ _) => apply aborts_maybe_need_cb_data; intros ?
  | |- aborts _ (action _ _ _ _) => apply aborts_action
  | |- aborts _ (validate _ _) => apply aborts_validate
  | |- aborts _ (match ?x with _ => _ end) => destruct x
  | |- aborts _ (scram_parse _) => unfold scram_parse
  | |- aborts _ (scram_proto _) => unfold scram_proto
  | |- aborts _ (exact _ _) => unfold exact
  | |- aborts _ (gss_try _) => unfold gss_try
  | |- aborts _ gss_err => unfold gss_err
  | |- aborts _ _ => apply aborts_silent
  end.

Lemma silent_draws : draws_ok silent.
Proof. intros w. reflexivity. Qed.

Lemma step_aborts e input : aborts e (mech_step e input).
Proof.
  pose proof silent_frame as F. unfold mech_step.
  apply aborts_bind; [apply aborts_silent, (keeps_getl _ F)|]. intros m.
  destruct m; unfold_steps;
  repeat (first
    [ abort_step | keep_step F | apply silent_writes | apply silent_draws ]).
Qed.

Theorem application_aborts e s input script r out s' pre ev post x :
  step e s input script = (r, out, s') ->
  s_trace s' = s_trace s ++ pre ++ ev :: post ->
  fatal e (s_trace s ++ pre) ev x -> ~ offers_keys ev ->
  r = Err x /\ only_calls post.
Proof.
  intros H T Hx Hk. unfold step, run in H.
  pose proof (step_aborts e input (s_mech s) (mk_world [] script (s_trace s) (s_rng s) (s_val s))) as K.
  destruct (mech_step e input _ _) as [[r1 m1] w1]. injection H as <- <- <-.
  destruct K as [evs [T1 O]]. cbn in T, T1, O. rewrite T1 in T. apply app_inv_head in T.
  exact (O _ _ _ _ T Hx Hk).
Qed.

(** The exception: the SCRAM client does not look at the outcome. *)
Theorem keys_outcome_ignored e s a st i script v64 :
  s_mech s = XScramC a (Some (ScServerFirst st)) ->
  server_final_parse i = Ok (SfVerifier v64) -> Base64.decode v64 = Some (wf_verifier st) ->
  exists s', step e s (Some i) script = (Ok (Finished false), [], s').
Proof.
  intros Hm Hp Hd. unfold step, run, mech_step, bind, getl. rewrite Hm. unfold on, scram_client_step.
  cbn. unfold handle_server_final, bind, scram_parse. rewrite Hp. cbn. rewrite Hd, bytes_eqb_refl.
  unfold ignore, action. cbn. destruct (run_action _ _ _ _) as [[r slot] tr].
  destruct (mask_early r); [|destruct slot]; cbn; eexists; reflexivity.
Qed.
