From Coq Require Import Eqdep_dec.
From Verif Require Import Bytes Base64 Types World WorldFacts Simple OAuth Scram Gssapi Session Frame
  Custom Spec_Abort Proof_Abort Spec_Decline Spec_Flow Proof_Flow.
Open Scope m_scope.

Definition meq {L A} (m m' : M L A) : Prop := forall l w, m l w = m' l w.

Lemma meq_refl {L A} (m : M L A) : meq m m.
Proof. intros l w. reflexivity. Qed.
Lemma meq_bind {L A B} (m m' : M L A) (f f' : A -> M L B) :
  meq m m' -> (forall a, meq (f a) (f' a)) -> meq (bind m f) (bind m' f').
Proof.
  intros Hm Hf l w. unfold bind. rewrite Hm. destruct (m' l w) as [[r l1] w1].
  destruct r; auto. apply Hf.
Qed.
Lemma meq_locally {L L' A} (l0 : L') (m m' : M L' A) :
  meq m m' -> meq (@locally L L' A l0 m) (locally l0 m').
Proof. intros Hm l w. unfold locally. rewrite Hm. reflexivity. Qed.
Lemma meq_ignore {L A} (m m' : M L A) : meq m m' -> meq (ignore m) (ignore m').
Proof. intros Hm l w. unfold ignore. rewrite Hm. reflexivity. Qed.
Lemma meq_on {L A} (wrap : L -> mech) l0 (m m' : M L A) :
  meq m m' -> meq (on wrap l0 m) (on wrap l0 m').
Proof. intros Hm l w. unfold on. rewrite Hm. reflexivity. Qed.
Lemma meq_catch {L A} (m m' : M L A) : meq m m' -> meq (catch m) (catch m').
Proof. intros Hm l w. unfold catch. rewrite Hm. reflexivity. Qed.

Lemma cr_satisfy_eq {L G} q (f f' : pval q -> M L G) st v l w :
  (forall v, meq (f v) (f' v)) -> cr_satisfy q f st v l w = cr_satisfy q f' st v l w.
Proof.
  intros Hf. unfold cr_satisfy. destruct st; auto. unfold bind, log. rewrite Hf. reflexivity.
Qed.

Lemma run_satisfy_ends {L G} R q (f f' : pval q -> M L G) p p' :
  (forall v, meq (f v) (f' v)) -> ends_rel R p p' -> (forall r, R r r) ->
  forall st l w,
  match run_satisfy q f p st l w, run_satisfy q f' p' st l w with
  | (Ok r, st1, l1, w1), (Ok r', st1', l1', w1') => R r r' /\ st1' = st1 /\ l1' = l1 /\ w1' = w1
  | (r, st1, l1, w1), (r', st1', l1', w1') => r' = r /\ st1' = st1 /\ l1' = l1 /\ w1' = w1
  end.
Proof.
  intros Hf Hp HR. induction Hp as [r r' H|p v k k' _ IH|p v k k' _ IH|p k k' _ IH|p k k' _ IH];
    intros st l w; cbn [run_satisfy]; auto; try apply IH.
  - destruct (castp v) as [v'|]; [|apply IH]. rewrite (cr_satisfy_eq q f f') by assumption.
    destruct (cr_satisfy q f' st v' l w) as [[[[u|x|] st1] l1] w1]; auto; apply IH.
  - destruct (prop_eq_dec p q) as [->|N]; [|apply IH]. cbn zeta. destruct v as [x|v]; [apply IH|].
    destruct (castp v) as [v'|]; [|apply IH]. rewrite (cr_satisfy_eq q f f') by assumption.
    destruct (cr_satisfy q f' st v' l _) as [[[[u|x|] st1] l1] w1]; auto; apply IH.
Qed.

Lemma run_satisfy_declines {L G} q (f : pval q -> M L G) p : declines q p ->
  exists r, (content r \/ r = Some (ECbNoCallback q)) /\
    forall st l w, run_satisfy q f p st l w = (Ok r, st, l, w).
Proof.
  intros H. induction H as [r H|p v k N _ [r [Hr IH]]|p v k N _ [r [Hr IH]]|p k _ [r [Hr IH]]
    |p k _ [r [Hr IH]]]; exists r; (split; [assumption|]); intros st l w; cbn [run_satisfy]; auto.
  - rewrite castp_other by assumption. apply IH.
  - destruct (prop_eq_dec p q); [contradiction|]. apply IH.
Qed.

Lemma run_action_ends R q p p' : ends_rel R p p' -> forall slot tr,
  match run_action q p slot tr, run_action q p' slot tr with
  | (r, s1, t1), (r', s1', t1') => R r r' /\ s1' = s1 /\ t1' = t1
  end.
Proof.
  intros Hp. induction Hp as [r r' H|p v k k' _ IH|p v k k' _ IH|p k k' _ IH|p k k' _ IH];
    intros slot tr; cbn [run_action]; auto; try apply IH.
  destruct (prop_eq_dec p q) as [E|N]; [|apply IH]. destruct slot as [v|]; apply IH.
Qed.

Lemma same_end_refl k r : same_end k r r.
Proof. left. reflexivity. Qed.

Section Decline.
Context (l0 : list prop) (e : env) (cb' : callback_of) (H : declines_alike l0 (e_cb e) cb').

Lemma meq_maybe_ends {L G} q c (f f' : pval q -> M L G) tr0 :
  (forall v, meq (f v) (f' v)) ->
  ends_rel (same_end (RSatisfy q)) (e_cb e tr0 (e_sd e) c (RSatisfy q))
    (cb' tr0 (e_sd e) c (RSatisfy q)) ->
  forall l w, w_trace w = tr0 ->
  maybe_need_with (set_cb e cb') q c f' l w = maybe_need_with e q c f l w.
Proof.
  intros Hf Hq l w <-. unfold maybe_need_with.
  change (e_cb (set_cb e cb')) with cb'. change (e_sd (set_cb e cb')) with (e_sd e). cbn zeta.
  pose proof (run_satisfy_ends _ q f f' _ _ Hf Hq (same_end_refl _) CrOpen l
    (add_event (EvRequest q c) w)) as K.
  destruct (run_satisfy q f _ _ l _) as [[[[r|x|] st1] l1] w1],
    (run_satisfy q f' _ _ l _) as [[[[r'|x'|] st1'] l1'] w1'];
    destruct K as [K [-> [-> ->]]]; try discriminate; try congruence.
  destruct K as [->|[[->|[->| ->]] [->|[->| ->]]]]; reflexivity.
Qed.

Lemma meq_maybe_need_with {L G} q c (f f' : pval q -> M L G) :
  ~ In q l0 -> (forall v, meq (f v) (f' v)) ->
  meq (maybe_need_with e q c f) (maybe_need_with (set_cb e cb') q c f').
Proof.
  intros N Hf l w. symmetry. apply (meq_maybe_ends q c f f' (w_trace w)); auto.
  destruct (H (w_trace w) (e_sd e) c (RSatisfy q)) as [K|[q' [[= <-] [I _]]]]; auto. contradiction.
Qed.

Lemma need_declined {L G} e1 q c (f : pval q -> M L G) l w :
  declines q (e_cb e1 (w_trace w) (e_sd e1) c (RSatisfy q)) ->
  need_with e1 q c f l w = (Err (ECbNoCallback q), l, add_event (EvRequest q c) w).
Proof.
  intros D. destruct (run_satisfy_declines q f _ D) as [r [Hr E]].
  unfold need_with, bind, maybe_need_with. rewrite E.
  destruct Hr as [[->|[->| ->]]| ->]; reflexivity.
Qed.

Lemma meq_need_with {L G} q c (f f' : pval q -> M L G) :
  (forall v, meq (f v) (f' v)) ->
  meq (need_with e q c f) (need_with (set_cb e cb') q c f').
Proof.
  intros Hf l w.
  destruct (H (w_trace w) (e_sd e) c (RSatisfy q)) as [K|[q' [[= <-] [_ [D D']]]]].
  - unfold need_with, bind. rewrite (meq_maybe_ends q c f f' (w_trace w)); auto.
  - rewrite (need_declined e q c f l w D). symmetry. apply need_declined. exact D'.
Qed.

Lemma meq_maybe_need_cb_data {L G} name c (f f' : bytes -> M L G) :
  ~ In PChannelBindings l0 -> (forall v, meq (f v) (f' v)) ->
  meq (maybe_need_cb_data e name c f) (maybe_need_cb_data (set_cb e cb') name c f').
Proof.
  intros N Hf. unfold maybe_need_cb_data. apply meq_bind; [apply meq_refl|]. intros _.
  change (e_chan (set_cb e cb')) with (e_chan e). destruct (e_chan e name).
  - apply meq_bind; [apply Hf|]. intros; apply meq_refl.
  - apply meq_maybe_need_with; assumption.
Qed.
Lemma meq_need_cb_data {L G} name c (f f' : bytes -> M L G) :
  ~ In PChannelBindings l0 -> (forall v, meq (f v) (f' v)) ->
  meq (need_cb_data e name c f) (need_cb_data (set_cb e cb') name c f').
Proof.
  intros N Hf. unfold need_cb_data. apply meq_bind; [apply meq_maybe_need_cb_data; assumption|].
  intros [g|]; apply meq_refl.
Qed.

Lemma meq_action {L} q c v : meq (@action L e q c v) (action (set_cb e cb') q c v).
Proof.
  intros l w. unfold action.
  change (e_cb (set_cb e cb')) with cb'. change (e_sd (set_cb e cb')) with (e_sd e). cbn zeta.
  destruct (H (w_trace w) (e_sd e) c (RAction q)) as [K|[q' [[=] _]]].
  pose proof (run_action_ends _ q _ _ K (Some v) (w_trace w ++ [EvAction q v c])) as E.
  destruct (run_action q (e_cb e _ _ _ _) _ _) as [[r s1] t1],
    (run_action q (cb' _ _ _ _) _ _) as [[r' s1'] t1']. destruct E as [E [-> ->]].
  destruct E as [->|[[->| ->] [->| ->]]]; reflexivity.
Qed.

Lemma meq_draws {L} n : meq (@draws L e n) (draws (set_cb e cb') n).
Proof.
  induction n as [|n IH]; cbn [draws]; [apply meq_refl|].
  apply meq_bind; [apply meq_refl|]. intros x. apply meq_bind; [exact IH|intros; apply meq_refl].
Qed.
End Decline.

Ltac eq_step H :=
  lazymatch goal with
  | |- meq (ret _) _ => apply meq_refl
  | |- meq (fail _) _ => apply meq_refl
  | |- meq panic _ => apply meq_refl
  | |- meq getl _ => apply meq_refl
  | |- meq (setl _) _ => apply meq_refl
  | |- meq (of_res _) _ => apply meq_refl
  | |- meq (bind _ _) _ => apply meq_bind; [|intros ?]
  | |- meq (locally _ _) _ => apply meq_locally
  | |- meq (ignore _) _ => apply meq_ignore
  | |- meq (on _ _ _) _ => apply meq_on
  | |- meq (need_with _ _ _ _) _ => apply (meq_need_with _ _ _ H); intros ?
  | |- meq (maybe_need_with _ _ _ _) _ => apply (meq_maybe_need_with _ _ _ H); [|intros ?]
  | |- meq (need_cb_data _ _ _ _) _ => apply (meq_need_cb_data _ _ _ H); [|intros ?]
  | |- meq (maybe_need_cb_data _ _ _ _) _ => apply (meq_maybe_need_cb_data _ _ _ H); [|intros ?]
  | |- meq (action _ _ _ _) _ => apply (meq_action _ _ _ H)
  | |- meq (draws _ _) _ => apply meq_draws
  | |- meq (validate _ _) _ => apply meq_refl
  | |- meq (write_all_vectored _) _ => apply meq_refl
  | |- meq (write_all _) _ => apply meq_refl
  | |- meq (write_json _ _) _ => apply meq_refl
  | |- meq (ob_write_kv _) _ => apply meq_refl
  | |- meq (log _) _ => apply meq_refl
  | |- meq (scram_parse _) _ => apply meq_refl
  | |- meq (scram_proto _) _ => apply meq_refl
  | |- meq (exact _ _) _ => apply meq_refl
  | |- meq (gss_try _) _ => apply meq_refl
  | |- meq gss_err _ => apply meq_refl
  | |- meq (match ?x with _ => _ end) (match ?y with _ => _ end) => change y with x; destruct x
  end.

Lemma mech_step_declines e cb' input :
  declines_alike demanded (e_cb e) cb' -> meq (mech_step e input) (mech_step (set_cb e cb') input).
Proof.
  intros H. unfold mech_step. eq_step H; [eq_step H|].
  destruct a; unfold_steps;
  repeat (first [ eq_step H | cbn; intuition discriminate ]).
Qed.

Lemma step_declines e cb' s input script : declines_alike demanded (e_cb e) cb' ->
  step (set_cb e cb') s input script = step e s input script.
Proof. intros H. unfold step, run. rewrite (mech_step_declines e cb' input H). reflexivity. Qed.

Lemma dialogue_declines e cb' s l : declines_alike demanded (e_cb e) cb' ->
  dialogue (set_cb e cb') s l = dialogue e s l /\ after (set_cb e cb') s l = after e s l.
Proof.
  intros H. revert s. induction l as [|[input script] l IH]; intros s; cbn [dialogue after]; auto.
  rewrite (step_declines e cb' s input script H).
  destruct (step e s input script) as [[r out] t]. destruct (IH t) as [-> E]. auto.
Qed.

Lemma exec_declines {T A} e cb' (p : prog T A) : declines_alike [] (e_cb e) cb' ->
  meq (exec e p) (exec (set_cb e cb') p).
Proof.
  intros H. revert A p. fix IH 2. intros A p. destruct p; cbn [exec];
    (apply meq_bind; [|intros ?; apply IH]) || apply meq_refl; try apply meq_refl;
    apply meq_catch.
  - apply (meq_maybe_need_with _ _ _ H); [cbn; tauto|]. intros v. apply IH.
  - apply (meq_maybe_need_cb_data _ _ _ H); [cbn; tauto|]. intros v. apply IH.
  - apply (meq_action _ _ _ H).
Qed.
Lemma cstep_declines {T} e cb' (m : custom T) s input script : declines_alike [] (e_cb e) cb' ->
  cstep (set_cb e cb') m s input script = cstep e m s input script.
Proof. intros H. unfold cstep. rewrite (exec_declines e cb' (m input) H). reflexivity. Qed.

Lemma declined_fails e s input script r out s' q c :
  In q demanded -> (forall tr sd c, declines q (e_cb e tr sd c (RSatisfy q))) ->
  step e s input script = (r, out, s') ->
  (exists pre post, s_trace s' = s_trace s ++ pre ++ EvRequest q c :: post) ->
  r = Err (ECbNoCallback q).
Proof.
  intros Hq Hd E [pre [post T]].
  set (cb' := fun tr (sd : sdata) c k => match k with
    | RSatisfy p => if prop_eq_dec p q then CRet (Some (ECbNoCallback q)) else e_cb e tr sd c k
    | RAction _ => e_cb e tr sd c k end).
  assert (Hr : forall p, ends_rel (fun r r' => r = r') p p).
  { intros p. induction p; constructor; auto. }
  assert (Hm : forall (R : cres -> cres -> Prop) p p', (forall r, R r r) ->
    ends_rel (fun r r' => r = r') p p' -> ends_rel R p p').
  { intros R p p' HR Hp. induction Hp; constructor; auto. subst. apply HR. }
  assert (A : declines_alike demanded (e_cb e) cb').
  { intros tr sd c' [p|p]; unfold cb'.
    - destruct (prop_eq_dec p q) as [->|N].
      + right. exists q. repeat split; auto. constructor. right. reflexivity.
      + left. apply Hm; auto. apply same_end_refl.
    - left. apply Hm; auto. apply same_end_refl. }
  rewrite <- (step_declines e cb' s input script A) in E.
  destruct (application_aborts _ _ _ _ _ _ _ pre (EvRequest q c) post (ECbNoCallback q) E T)
    as [-> _]; auto.
  cbn. unfold cb'. destruct (prop_eq_dec q q); [|congruence].
  split; [exact I|]. split; [reflexivity|]. split; discriminate.
Qed.

Lemma faulty_declines pw u : declines PAuthId (faulty pw u true).
Proof. constructor; [discriminate|]. constructor. left. left. reflexivity. Qed.
