(** Mechanisms of other crates and their writer (C129). *)
From Verif Require Import Bytes Base64 Base64Facts Types World CallbackSpec WorldFacts MonadFacts
  Session Frame Sim Spec_Session Spec_Pieces Proof_Pieces Custom Spec_Custom Spec_Outlet.
Open Scope m_scope.

Lemma steady_catch {L A} (m : M L A) : steady m -> steady (catch m).
Proof.
  intros Hm l w r l' w' W H. unfold catch in *.
  destruct (m l w) as [[r1 l1] w1] eqn:E. destruct (Hm _ _ _ _ _ W E) as [W1 Hp]. rewrite Hp.
  destruct r1; injection H as <- <- <-; auto.
Qed.
Lemma steady_draw {L} e : steady (@draw L e).
Proof. intros l w r l' w' W [= <- <- <-]. split; [exact W|reflexivity]. Qed.
Lemma steady_exec {T A} e (p : prog T A) : whole_writes p -> steady (exec e p).
Proof.
  induction p as [A r|A k IH|A t k IH|A d k IH|A d k IH|A k IH|A G q c f IHf k IH
                 |A G n c f IHf k IH|A q c v k IH|A c k IH]; cbn [whole_writes exec]; intros H.
  - apply steady_of_res.
  - apply steady_bind; [apply steady_getl|]. intros t. apply IH, H.
  - apply steady_bind; [apply steady_setl|]. intros _. apply IH, H.
  - destruct H.
  - apply steady_bind; [apply steady_catch, steady_write_all|]. intros x. apply IH, H.
  - apply steady_bind; [apply steady_draw|]. intros x. apply IH, H.
  - destruct H as [Hf Hk]. apply steady_bind; [|intros x; apply IH, Hk].
    apply steady_catch, steady_maybe_need_with. intros v. apply IHf, Hf.
  - destruct H as [Hf Hk]. apply steady_bind; [|intros x; apply IH, Hk].
    apply steady_catch, steady_maybe_need_cb_data. intros v. apply IHf, Hf.
  - apply steady_bind; [apply steady_catch, steady_action|]. intros x. apply IH, H.
  - apply steady_bind; [apply steady_catch, steady_validate|]. intros x. apply IH, H.
Qed.
Theorem outlet_patient {T} e (m : custom T) s input script : whole_writes (m input) ->
  patient script -> cstep e m s input script = cstep e m s input [].
Proof.
  intros H W. unfold cstep.
  destruct (exec e (m input) (cs_state s) (mk_world [] script (cs_trace s) (cs_rng s) (cs_val s)))
    as [[r t] w] eqn:E.
  destruct (steady_exec e _ H _ (mk_world [] script (cs_trace s) (cs_rng s) (cs_val s)) _ _ _ W E) as [_ Hp].
  unfold perfect at 1 in Hp. cbn [w_out w_trace w_rng w_val] in Hp. rewrite Hp. reflexivity.
Qed.

Definition anyz (s : list wresp) : Prop := True.
Lemma sim_caught {L A B} (m : M L A) (f : serr + A -> M L B) :
  sim anyz m -> (forall x, f (inl x) = of_res (Err x)) -> (forall a, sim anyz (f (inr a))) ->
  sim anyz (bind (catch m) f).
Proof.
  intros Hm Hx Hf l w r l' w' Z H. unfold bind, catch in *.
  destruct (m l w) as [[r1 l1] w1] eqn:E. destruct (Hm _ _ _ _ _ Z E) as [Io|[S Hp]].
  - left. destruct r1 as [a|x|]; try destruct Io. rewrite Hx in H. injection H as <- <- <-. exact Io.
  - rewrite Hp. destruct r1 as [a|x|].
    + destruct (Hf a _ _ _ _ _ I H) as [Io|[S' Hp']]; [left; exact Io|right].
      split; [eapply script_left_trans; eassumption|exact Hp'].
    + rewrite Hx in *. injection H as <- <- <-. right. auto.
    + injection H as <- <- <-. right. auto.
Qed.
Lemma sim_catch_action {L} e q c v : sim anyz (catch (@action L e q c v)).
Proof.
  intros l w r l' w' _ H. unfold catch, action in *. simpl.
  destruct (run_action _ _ _ _) as [[x slot] tr].
  destruct (mask_early x); [|destruct slot]; injection H as <- <- <-; right;
    (split; [apply script_left_refl|reflexivity]).
Qed.
Lemma sim_catch_validate {L} e c : sim anyz (catch (@validate L e c)).
Proof.
  intros l w r l' w' _ H. unfold catch, validate in *. simpl.
  destruct (run_validate _ _ _) as [[x|] slot]; injection H as <- <- <-; right;
    (split; [apply script_left_refl|reflexivity]).
Qed.
Lemma sim_draw {L} e : sim anyz (@draw L e).
Proof. intros l w r l' w' _ [= <- <- <-]. right. split; [apply script_left_refl|reflexivity]. Qed.
Lemma anyz_hereditary : hereditary anyz.
Proof. intros s s' _ _. exact I. Qed.
Lemma sim_exec {T A} e (p : prog T A) : polite e -> hands_on p -> sim anyz (exec e p).
Proof.
  intros P. pose proof anyz_hereditary as HZ.
  induction p as [A r|A k IH|A t k IH|A d k IH|A d k IH|A k IH|A G q c f IHf k IH
                 |A G n c f IHf k IH|A q c v k IH|A c k IH]; cbn [hands_on exec]; intros H.
  - apply sim_of_res.
  - apply (sim_bind _ HZ); [apply sim_getl|]. intros t. apply IH, H.
  - apply (sim_bind _ HZ); [apply sim_setl|]. intros _. apply IH, H.
  - destruct H.
  - destruct H as [Hx Hk]. apply sim_caught; [apply sim_write_all| |].
    + intros x. cbn [failed]. rewrite Hx. reflexivity.
    + intros a. apply IH, Hk.
  - apply (sim_bind _ HZ); [apply sim_draw|]. intros x. apply IH, H.
  - destruct H as (Hf & Hx & Hk). apply sim_caught; [| |intros a; apply IH, Hk].
    + apply sim_maybe_need_with; [exact P|]. intros v. apply IHf, Hf.
    + intros x. rewrite Hx. reflexivity.
  - destruct H as (Hf & Hx & Hk). apply sim_caught; [| |intros a; apply IH, Hk].
    + apply (sim_maybe_need_cb_data _ HZ); [exact P|]. intros v. apply IHf, Hf.
    + intros x. rewrite Hx. reflexivity.
  - apply (sim_bind _ HZ); [apply sim_catch_action|]. intros x. apply IH, H.
  - apply (sim_bind _ HZ); [apply sim_catch_validate|]. intros x. apply IH, H.
Qed.
Theorem outlet_complete {T} e (m : custom T) s input script st out s' : polite e ->
  hands_on (m input) -> cstep e m s input script = (Ok st, out, s') ->
  cstep e m s input [] = (Ok st, out, s').
Proof.
  intros P H. unfold cstep.
  destruct (exec e (m input) (cs_state s) (mk_world [] script (cs_trace s) (cs_rng s) (cs_val s)))
    as [[r t] w] eqn:E.
  destruct (sim_exec e _ P H _ (mk_world [] script (cs_trace s) (cs_rng s) (cs_val s)) _ _ _ I E) as [Io|[_ Hp]].
  - intros [= -> _ _]. destruct Io.
  - unfold perfect at 1 in Hp. cbn [w_out w_trace w_rng w_val] in Hp. rewrite Hp. intros X; exact X.
Qed.

Theorem outlet_lines {T} e (m : custom T) s line x r out s' : line_for line x ->
  cstep64 e m s line = (r, out, s') ->
  match x with
  | None => r = Err EBase64 /\ out = [] /\ s' = s
  | Some input => exists o, cstep e m s input [] = (r, o, s') /\ out = encode o
  end.
Proof.
  intros Hl H. destruct Hl as [|b|z N]; cbn [cstep64] in H.
  - destruct (cstep e m s None []) as [[r1 o1] s1]. injection H as <- <- <-. eauto.
  - rewrite decode_encode in H. destruct (cstep e m s (Some b) []) as [[r1 o1] s1].
    injection H as <- <- <-. eauto.
  - destruct (decode z) as [b|] eqn:D.
    + exfalso. apply (N b), decode_canonical, D.
    + injection H as <- <- <-. auto.
Qed.
