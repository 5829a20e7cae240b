(** What of an application a session notices (C130). *)
From Verif Require Import Bytes Types World CallbackSpec WorldFacts MonadFacts Simple OAuth Scram Gssapi Session Frame
  Spec_Session Spec_History Spec_Docs Proof_Docs Proof_Session Custom Proof_Flow Spec_Simple Spec_Flow Spec_Asked.
Open Scope m_scope.

Lemma passes_same {L G} q (f : pval q -> M L G) p p1 : passes q p p1 ->
  forall st l w, run_satisfy q f p st l w = run_satisfy q f p1 st l w.
Proof.
  destruct 1; intros st l w; cbn [run_satisfy]; try reflexivity.
  - unfold castp. destruct (prop_eq_dec p q); [contradiction|reflexivity].
  - destruct (prop_eq_dec p q); [contradiction|reflexivity].
  - destruct (prop_eq_dec p q); [contradiction|reflexivity].
  - destruct (prop_eq_dec q q); [reflexivity|contradiction].
Qed.
Lemma reply_same {L G} q (f : pval q -> M L G) p p' : same_reply q p p' ->
  forall st l w, run_satisfy q f p' st l w = run_satisfy q f p st l w.
Proof.
  induction 1 as [x|v k k' _ IH|c k k' _ IH|p p1 p' S _ IH|p p' p1 S _ IH]; intros st l w.
  - reflexivity.
  - cbn [run_satisfy]. rewrite castp_refl.
    destruct (cr_satisfy q f st v l w) as [[[[u|x|] st2] l2] w2]; [apply IH..|reflexivity].
  - cbn [run_satisfy]. destruct (prop_eq_dec q q); [|contradiction]. cbn zeta. destruct c as [x|v]; [apply IH|].
    rewrite castp_refl.
    destruct (cr_satisfy q f st v l _) as [[[[u|x|] st2] l2] w2]; [apply IH..|reflexivity].
  - rewrite (passes_same q f _ _ S). apply IH.
  - rewrite (passes_same q f _ _ S). apply IH.
Qed.
Lemma ignores_same q p p1 : ignores q p p1 ->
  forall slot tr, run_action q p slot tr = run_action q p1 slot tr.
Proof.
  destruct 1; intros slot tr; cbn [run_action]; try reflexivity.
  - destruct (prop_eq_dec p q); [contradiction|reflexivity].
  - destruct (prop_eq_dec p q); [contradiction|reflexivity].
  - destruct (prop_eq_dec q q); [reflexivity|contradiction].
Qed.
Lemma taking_same q p p' : same_taking q p p' ->
  forall slot tr, run_action q p' slot tr = run_action q p slot tr.
Proof.
  induction 1 as [x|k k' _ IH|p p1 p' S _ IH|p p' p1 S _ IH]; intros slot tr.
  - reflexivity.
  - cbn [run_action]. destruct (prop_eq_dec q q); [|apply IH]. destruct slot; apply IH.
  - rewrite (ignores_same q _ _ S). apply IH.
  - rewrite (ignores_same q _ _ S). apply IH.
Qed.

Lemma overlooks_same t p p1 : overlooks t p p1 ->
  forall slot, run_validate t p slot = run_validate t p1 slot.
Proof.
  destruct 1 as [u x k N|u f k N|u k N|k]; intros slot; cbn [run_validate];
    try rewrite (proj2 (PeanoNat.Nat.eqb_neq u t) N); rewrite ?PeanoNat.Nat.eqb_refl; reflexivity.
Qed.
Lemma verdict_same t p p' : same_verdict t p p' ->
  forall slot, run_validate t p' slot = run_validate t p slot.
Proof.
  induction 1 as [x|x k k' _ IH|f k k' _ IH|p p1 p' S _ IH|p p' p1 S _ IH]; intros slot.
  - reflexivity.
  - cbn [run_validate]. apply IH.
  - cbn [run_validate]. rewrite PeanoNat.Nat.eqb_refl. destruct slot; [apply IH|]. destruct f; apply IH.
  - rewrite (overlooks_same t _ _ S). apply IH.
  - rewrite (overlooks_same t _ _ S). apply IH.
Qed.
Lemma verdict_refl t p : same_verdict t p p.
Proof.
  induction p as [x|u x k IH|u f k IH|u k IH]; [constructor|..];
    destruct (PeanoNat.Nat.eq_dec u t) as [->|N]; try (constructor; auto; fail).
  - eapply sv_skip; [apply ov_finalize, N|]. eapply sv_skip'; [apply ov_finalize, N|exact IH].
  - eapply sv_skip; [apply ov_with, N|]. eapply sv_skip'; [apply ov_with, N|apply IH].
  - eapply sv_skip; [apply ov_is_not|]. eapply sv_skip'; [apply ov_is_not|apply IH].
  - eapply sv_skip; [apply ov_is, N|]. eapply sv_skip'; [apply ov_is, N|apply IH].
Qed.

Section Asked.
Context (e e' : env).

Lemma concur_app tr a b : concur e e' tr (a ++ b) <-> concur e e' tr a /\ concur e e' (tr ++ a) b.
Proof.
  revert tr. induction a as [|x a IH]; intros tr; cbn [app concur].
  - rewrite app_nil_r. tauto.
  - rewrite IH, <- app_assoc. cbn [app]. tauto.
Qed.

(** [m'] does what [m] does if the applications do the same about its events. *)
Definition loc {L A} (m m' : M L A) : Prop := forall l w r l' w', m l w = (r, l', w') ->
  exists evs, w_trace w' = w_trace w ++ evs /\ (concur e e' (w_trace w) evs -> m' l w = (r, l', w')).

Lemma loc_quiet {L A} (m : M L A) : keeps (fun w w' => w_trace w' = w_trace w) m -> loc m m.
Proof.
  intros K l w r l' w' H. specialize (K l w). rewrite H in K. exists []. rewrite app_nil_r.
  split; [exact K|intros _; exact H].
Qed.
Lemma loc_ret {L A} (a : A) : loc (@ret L A a) (ret a).
Proof. apply loc_quiet. intros l w. reflexivity. Qed.
Lemma loc_fail {L A} x : loc (@fail L A x) (fail x).
Proof. apply loc_quiet. intros l w. reflexivity. Qed.
Lemma loc_panic {L A} : loc (@panic L A) panic.
Proof. apply loc_quiet. intros l w. reflexivity. Qed.
Lemma loc_getl {L} : loc (@getl L) getl.
Proof. apply loc_quiet. intros l w. reflexivity. Qed.
Lemma loc_setl {L} (x : L) : loc (setl x) (setl x).
Proof. apply loc_quiet. intros l w. reflexivity. Qed.
Lemma loc_of_res {L A} (x : res serr A) : loc (@of_res L A x) (of_res x).
Proof. apply loc_quiet. intros l w. reflexivity. Qed.
Lemma loc_bind {L A B} (m m' : M L A) (f f' : A -> M L B) :
  loc m m' -> (forall a, loc (f a) (f' a)) -> loc (bind m f) (bind m' f').
Proof.
  intros Hm Hf l w r l' w' H. unfold bind in *. destruct (m l w) as [[r1 l1] w1] eqn:E.
  destruct (Hm _ _ _ _ _ E) as (ev1 & T1 & C1). destruct r1 as [a|x|].
  - destruct (Hf a _ _ _ _ _ H) as (ev2 & T2 & C2). exists (ev1 ++ ev2).
    split; [rewrite T2, T1, app_assoc; reflexivity|]. intros C. apply concur_app in C.
    rewrite (C1 (proj1 C)). apply C2. rewrite T1. apply C.
  - injection H as <- <- <-. exists ev1. split; [exact T1|]. intros C. rewrite (C1 C). reflexivity.
  - injection H as <- <- <-. exists ev1. split; [exact T1|]. intros C. rewrite (C1 C). reflexivity.
Qed.
Ltac one_of Hm E := let ev := fresh "ev" in let T := fresh "T" in let C := fresh "C" in
  destruct (Hm _ _ _ _ _ E) as (ev & T & C); exists ev.
Lemma loc_locally {L L' A} (l0 : L') (m m' : M L' A) : loc m m' -> loc (@locally L L' A l0 m) (locally l0 m').
Proof.
  intros Hm l w r l' w' H. unfold locally in *. destruct (m l0 w) as [[r1 l1] w1] eqn:E. one_of Hm E.
  destruct r1; injection H as <- <- <-; (split; [exact T|intros X; rewrite (C X); reflexivity]).
Qed.
Lemma loc_ignore {L A} (m m' : M L A) : loc m m' -> loc (ignore m) (ignore m').
Proof.
  intros Hm l w r l' w' H. unfold ignore in *. destruct (m l w) as [[r1 l1] w1] eqn:E. one_of Hm E.
  destruct r1; injection H as <- <- <-; (split; [exact T|intros X; rewrite (C X); reflexivity]).
Qed.
Lemma loc_catch {L A} (m m' : M L A) : loc m m' -> loc (catch m) (catch m').
Proof.
  intros Hm l w r l' w' H. unfold catch in *. destruct (m l w) as [[r1 l1] w1] eqn:E. one_of Hm E.
  destruct r1; injection H as <- <- <-; (split; [exact T|intros X; rewrite (C X); reflexivity]).
Qed.
Lemma loc_on {L A} (wrap : L -> mech) l0 (m m' : M L A) : loc m m' -> loc (on wrap l0 m) (on wrap l0 m').
Proof.
  intros Hm l w r l' w' H. unfold on in *. destruct (m l0 w) as [[r1 l1] w1] eqn:E. one_of Hm E.
  injection H as <- <- <-. split; [exact T|intros X; rewrite (C X); reflexivity].
Qed.
Lemma loc_log {L} ev : loc (@log L ev) (log ev).
Proof. intros l w r l' w' [= <- <- <-]. exists [ev]. split; reflexivity. Qed.

Definition quiet (w w' : world) : Prop := w_trace w' = w_trace w.
Lemma quiet_writes : writes quiet.
Proof. intros p w w' H. apply H. Qed.
Lemma loc_write_all {L} d : loc (@write_all L d) (write_all d).
Proof. apply loc_quiet, keeps_write_all, quiet_writes. Qed.
Lemma loc_write_once {L} d : loc (@write_once L d) (write_once d).
Proof.
  apply loc_quiet. intros l w. unfold write_once, write1.
  destruct (w_script w) as [|[]]; reflexivity.
Qed.
Lemma loc_write_all_vectored {L} d : loc (@write_all_vectored L d) (write_all_vectored d).
Proof. apply loc_quiet, keeps_write_all_vectored, quiet_writes. Qed.
Lemma loc_write_json {L} x : e_json_to e' = e_json_to e -> loc (@write_json L e x) (write_json e' x).
Proof.
  intros J. assert (write_json (L := L) e' x = write_json e x) as ->.
  { unfold write_json. rewrite J. reflexivity. }
  apply loc_quiet, keeps_write_json, quiet_writes.
Qed.
Lemma loc_ob_write_kv {L} kv : loc (@ob_write_kv L kv) (ob_write_kv kv).
Proof.
  induction kv as [|[k v] kv IH]; cbn [ob_write_kv]; [apply loc_ret|].
  apply loc_bind; [apply loc_write_all_vectored|intros; exact IH].
Qed.
Lemma loc_draw {L} : e_rng e' = e_rng e -> loc (@draw L e) (draw e').
Proof.
  intros J. assert (draw (L := L) e' = draw e) as ->. { unfold draw. rewrite J. reflexivity. }
  apply loc_quiet. intros l w. reflexivity.
Qed.
Lemma loc_draws {L} n : e_rng e' = e_rng e -> loc (@draws L e n) (draws e' n).
Proof.
  intros J. induction n as [|n IH]; cbn [draws]; [apply loc_ret|].
  apply loc_bind; [apply loc_draw, J|intros x; apply loc_bind; [exact IH|intros; apply loc_ret]].
Qed.

Lemma cr_satisfy_loc {L G} q (f f' : pval q -> M L G) st v l w r st1 l1 w1 :
  (forall v, loc (f v) (f' v)) -> cr_satisfy q f st v l w = (r, st1, l1, w1) ->
  exists evs, w_trace w1 = w_trace w ++ evs /\
    (concur e e' (w_trace w) evs -> cr_satisfy q f' st v l w = (r, st1, l1, w1)).
Proof.
  intros Hf H. unfold cr_satisfy in *. destruct st.
  2,3: injection H as <- <- <- <-; exists []; rewrite app_nil_r; split; reflexivity.
  assert (S : loc (bind (log (EvAnswer q v)) (fun _ => f v)) (bind (log (EvAnswer q v)) (fun _ => f' v))).
  { apply loc_bind; [apply loc_log|]. intros _. apply Hf. }
  destruct (bind (log (EvAnswer q v)) (fun _ => f v) l w) as [[r2 l2] w2] eqn:E. one_of S E.
  destruct r2; injection H as <- <- <- <-; (split; [exact T|intros X; rewrite (C X); reflexivity]).
Qed.
Lemma run_satisfy_loc {L G} q (f f' : pval q -> M L G) p : (forall v, loc (f v) (f' v)) ->
  forall st l w r st1 l1 w1, run_satisfy q f p st l w = (r, st1, l1, w1) ->
  exists evs, w_trace w1 = w_trace w ++ evs /\
    (concur e e' (w_trace w) evs -> run_satisfy q f' p st l w = (r, st1, l1, w1)).
Proof.
  intros Hf. induction p as [x|p v k IH|p c k IH|p k IH|p k IH]; intros st l w r st1 l1 w1 H;
    cbn [run_satisfy] in H |- *.
  - injection H as <- <- <- <-. exists []. rewrite app_nil_r. split; reflexivity.
  - destruct (castp v) as [v'|]; [|apply IH; assumption].
    destruct (cr_satisfy q f st v' l w) as [[[r2 st2] l2] w2] eqn:E.
    destruct (cr_satisfy_loc _ _ _ _ _ _ _ _ _ _ _ Hf E) as (ev1 & T1 & C1).
    destruct r2 as [u|x|].
    3:{ injection H as <- <- <- <-. exists ev1. split; [exact T1|]. intros X. rewrite (C1 X). reflexivity. }
    1,2: destruct (IH _ _ _ _ _ _ _ _ H) as (ev2 & T2 & C2); exists (ev1 ++ ev2);
      (split; [rewrite T2, T1, app_assoc; reflexivity|]); intros X; apply concur_app in X;
      rewrite (C1 (proj1 X)); apply C2; rewrite T1; apply X.
  - destruct (prop_eq_dec p q) as [Epq|]; [|apply IH; assumption]. cbn zeta in *.
    assert (R : forall ev2 w2, w_trace w2 = w_trace (add_event (EvClosure p) w) ++ ev2 ->
      w_trace w2 = w_trace w ++ EvClosure p :: ev2).
    { intros ev2 w2 ->. cbn [add_event w_trace]. rewrite <- app_assoc. reflexivity. }
    destruct c as [x|v].
    { destruct (IH _ _ _ _ _ _ _ _ H) as (ev2 & T2 & C2). exists (EvClosure p :: ev2).
      split; [apply R, T2|]. intros [_ X]. apply C2, X. }
    destruct (castp v) as [v'|].
    2:{ destruct (IH _ _ _ _ _ _ _ _ H) as (ev2 & T2 & C2). exists (EvClosure p :: ev2).
        split; [apply R, T2|]. intros [_ X]. apply C2, X. }
    destruct (cr_satisfy q f st v' l (add_event (EvClosure p) w)) as [[[r2 st2] l2] w2] eqn:E.
    destruct (cr_satisfy_loc _ _ _ _ _ _ _ _ _ _ _ Hf E) as (ev1 & T1 & C1).
    destruct r2 as [u|x|].
    3:{ injection H as <- <- <- <-. exists (EvClosure p :: ev1). split; [apply R, T1|].
        intros [_ X]. rewrite (C1 X). reflexivity. }
    1,2: destruct (IH _ _ _ _ _ _ _ _ H) as (ev2 & T2 & C2); exists (EvClosure p :: ev1 ++ ev2);
      (split; [apply R; rewrite T2, T1, app_assoc; reflexivity|]); intros [_ X]; apply concur_app in X;
      rewrite (C1 (proj1 X)); apply C2; rewrite T1; apply X.
  - apply IH; auto.
  - apply IH; auto.
Qed.
Lemma run_action_trace q p : forall slot tr r s1 t1, run_action q p slot tr = (r, s1, t1) ->
  exists evs, t1 = tr ++ evs.
Proof.
  induction p as [x|p v k IH|p c k IH|p k IH|p k IH]; intros slot tr r s1 t1 H; cbn [run_action] in H;
    try (eapply IH; exact H).
  - injection H as <- <- <-. exists []. rewrite app_nil_r. reflexivity.
  - destruct (prop_eq_dec p q); [destruct slot|]; try (eapply IH; exact H).
    apply IH in H. destruct H as [evs ->]. exists ([EvTaken q] ++ evs). rewrite app_assoc. reflexivity.
Qed.
Context (Hsd : e_sd e' = e_sd e) (Htag : e_vtag e' = e_vtag e).
Lemma loc_maybe_need_with {L G} q c (f f' : pval q -> M L G) : (forall v, loc (f v) (f' v)) ->
  loc (maybe_need_with e q c f) (maybe_need_with e' q c f').
Proof.
  intros Hf l w r l' w' H. unfold maybe_need_with in *. rewrite Hsd.
  destruct (run_satisfy q f (e_cb e (w_trace w) (e_sd e) c (RSatisfy q)) CrOpen l (add_event (EvRequest q c) w))
    as [[[r1 st] l1] w1] eqn:E.
  destruct (run_satisfy_loc q f f' _ Hf _ _ _ _ _ _ _ E) as (evs & T & C).
  exists (EvRequest q c :: evs). split.
  - assert (w1 = w') as <-. { destruct r1 as [x|x|]; [destruct (mask_early x) as [[]|]|..]; injection H as <- <- <-; reflexivity. }
    rewrite T. cbn [add_event w_trace]. rewrite <- app_assoc. reflexivity.
  - intros [X1 X2]. cbn [alike] in X1. rewrite (reply_same q f' _ _ X1), (C X2). exact H.
Qed.
Lemma loc_need_with {L G} q c (f f' : pval q -> M L G) : (forall v, loc (f v) (f' v)) ->
  loc (need_with e q c f) (need_with e' q c f').
Proof.
  intros Hf. unfold need_with. apply loc_bind; [apply loc_maybe_need_with, Hf|].
  intros [g|]; [apply loc_ret|apply loc_fail].
Qed.
Lemma loc_maybe_need_cb_data {L G} name c (f f' : bytes -> M L G) : (forall v, loc (f v) (f' v)) ->
  loc (maybe_need_cb_data e name c f) (maybe_need_cb_data e' name c f').
Proof.
  intros Hf l w r l' w' H. unfold maybe_need_cb_data, bind at 1, log in H. unfold maybe_need_cb_data, bind at 1, log.
  assert (S : loc (match e_chan e name with
                   | Some d => g <- f d ;; ret (Some g)
                   | None => maybe_need_with e PChannelBindings (and_provider (this_provider PChannelBindingName name) c) f
                   end)
                  (match e_chan e name with
                   | Some d => g <- f' d ;; ret (Some g)
                   | None => maybe_need_with e' PChannelBindings (and_provider (this_provider PChannelBindingName name) c) f'
                   end)).
  { destruct (e_chan e name) as [d|]; [|apply loc_maybe_need_with; exact Hf].
    apply loc_bind; [apply Hf|]. intros; apply loc_ret. }
  destruct (S _ _ _ _ _ H) as (evs & T & C). exists (EvChan name :: evs). split.
  - rewrite T. cbn [add_event w_trace]. rewrite <- app_assoc. reflexivity.
  - intros [X1 X2]. cbn [alike] in X1. rewrite X1. apply C, X2.
Qed.
Lemma loc_need_cb_data {L G} name c (f f' : bytes -> M L G) : (forall v, loc (f v) (f' v)) ->
  loc (need_cb_data e name c f) (need_cb_data e' name c f').
Proof.
  intros Hf. unfold need_cb_data. apply loc_bind; [apply loc_maybe_need_cb_data, Hf|].
  intros [g|]; [apply loc_ret|apply loc_fail].
Qed.
Lemma loc_action {L} q c v : loc (@action L e q c v) (action e' q c v).
Proof.
  intros l w r l' w' H. unfold action in *. rewrite Hsd.
  destruct (run_action q (e_cb e (w_trace w) (e_sd e) c (RAction q)) (Some v) (w_trace w ++ [EvAction q v c]))
    as [[x s1] t1] eqn:E.
  destruct (run_action_trace _ _ _ _ _ _ _ E) as [evs T]. exists (EvAction q v c :: evs). split.
  - assert (w_trace w' = t1) as ->.
    { destruct (mask_early x); [|destruct s1]; injection H as <- <- <-; reflexivity. }
    rewrite T, <- app_assoc. reflexivity.
  - intros [X1 X2]. cbn [alike] in X1. rewrite (taking_same q _ _ X1), E. exact H.
Qed.
Lemma loc_validate {L} c : loc (@validate L e c) (validate e' c).
Proof.
  intros l w r l' w' H. unfold validate in *. rewrite Hsd, Htag.
  exists [EvValidate c]. split.
  - destruct (run_validate _ _ _) as [[x|] slot]; injection H as <- <- <-; reflexivity.
  - intros [X1 _]. cbn [alike] in X1. rewrite (verdict_same _ _ _ X1). exact H.
Qed.
End Asked.

Ltac loc_step :=
  lazymatch goal with
  | |- loc _ _ (ret _) _ => apply loc_ret
  | |- loc _ _ (fail _) _ => apply loc_fail
  | |- loc _ _ panic _ => apply loc_panic
  | |- loc _ _ getl _ => apply loc_getl
  | |- loc _ _ (setl _) _ => apply loc_setl
  | |- loc _ _ (of_res _) _ => apply loc_of_res
  | |- loc _ _ (bind _ _) _ => apply loc_bind; [|intros ?]
  | |- loc _ _ (locally _ _) _ => apply loc_locally
  | |- loc _ _ (ignore _) _ => apply loc_ignore
  | |- loc _ _ (on _ _ _) _ => apply loc_on
  | |- loc _ _ (need_with _ _ _ _) _ => apply loc_need_with; [reflexivity|intros ?]
  | |- loc _ _ (maybe_need_with _ _ _ _) _ => apply loc_maybe_need_with; [reflexivity|intros ?]
  | |- loc _ _ (need_cb_data _ _ _ _) _ => apply loc_need_cb_data; [reflexivity|intros ?]
  | |- loc _ _ (maybe_need_cb_data _ _ _ _) _ => apply loc_maybe_need_cb_data; [reflexivity|intros ?]
  | |- loc _ _ (action _ _ _ _) _ => apply loc_action; reflexivity
  | |- loc _ _ (validate _ _) _ => apply loc_validate; reflexivity
  | |- loc _ _ (write_all_vectored _) _ => apply loc_write_all_vectored
  | |- loc _ _ (write_all _) _ => apply loc_write_all
  | |- loc _ _ (write_json _ _) _ => apply loc_write_json; reflexivity
  | |- loc _ _ (ob_write_kv _) _ => apply loc_ob_write_kv
  | |- loc _ _ (draws _ _) _ => apply loc_draws; reflexivity
  | |- loc _ _ (scram_parse _) _ => unfold scram_parse
  | |- loc _ _ (scram_proto _) _ => unfold scram_proto
  | |- loc _ _ (exact _ _) _ => unfold exact
  | |- loc _ _ (gss_try _) _ => unfold gss_try
  | |- loc _ _ gss_err _ => unfold gss_err
  | |- loc _ _ (log _) _ => apply loc_log
  | |- loc _ _ (match ?x with _ => _ end) (match ?y with _ => _ end) => change y with x; destruct x
  end.
Lemma mech_step_loc e cb vcb chan input :
  loc e (another e cb vcb chan) (mech_step e input) (mech_step (another e cb vcb chan) input).
Proof.
  unfold mech_step. loc_step; [loc_step|]. destruct a; unfold_steps; repeat loc_step.
Qed.

Theorem asked_step e cb vcb chan s input script r out s' evs :
  step e s input script = (r, out, s') -> new_events s s' evs ->
  concur e (another e cb vcb chan) (s_trace s) evs ->
  step (another e cb vcb chan) s input script = (r, out, s').
Proof.
  unfold step, run, new_events. intros H N C.
  destruct (mech_step e input (s_mech s) (mk_world [] script (s_trace s) (s_rng s) (s_val s))) as [[r1 m1] w1] eqn:E.
  destruct (mech_step_loc e cb vcb chan input _ _ _ _ _ E) as (evs1 & T & K). cbn [w_trace] in T, K.
  injection H as <- <- <-. cbn [s_trace] in N. rewrite T in N. apply app_inv_head in N. subst evs1.
  rewrite (K C). reflexivity.
Qed.
Theorem asked_dialogue e cb vcb chan l : forall s evs,
  s_trace (after e s l) = s_trace s ++ evs -> concur e (another e cb vcb chan) (s_trace s) evs ->
  dialogue (another e cb vcb chan) s l = dialogue e s l /\ after (another e cb vcb chan) s l = after e s l.
Proof.
  induction l as [|[input script] l IH]; intros s evs T C; [split; reflexivity|].
  cbn [dialogue after] in *.
  destruct (step e s input script) as [[r out] s1] eqn:E. cbn [snd] in *.
  assert (X : forall (m : session) l, exists evs, s_trace (after e m l) = s_trace m ++ evs).
  { intros m l0. revert m. induction l0 as [|[i0 sc0] l0 IH0]; intros m; cbn [after].
    - exists []. rewrite app_nil_r. reflexivity.
    - destruct (step e m i0 sc0) as [[r0 o0] m0] eqn:E0. cbn [snd].
      destruct (IH0 m0) as [ev2 ->].
      unfold step, run in E0.
      destruct (mech_step e i0 (s_mech m) (mk_world [] sc0 (s_trace m) (s_rng m) (s_val m))) as [[r1 m1] w1] eqn:E1.
      destruct (mech_step_loc e cb vcb chan i0 _ _ _ _ _ E1) as (ev1 & T1 & _). cbn [w_trace] in T1.
      injection E0 as <- <- <-. cbn [s_trace]. rewrite T1. exists (ev1 ++ ev2). rewrite app_assoc. reflexivity. }
  destruct (X s1 l) as [ev2 T2].
  assert (N : exists ev1, s_trace s1 = s_trace s ++ ev1).
  { destruct (X s [(input, script)]) as [ev1 Q]. cbn [after] in Q. rewrite E in Q. exists ev1. exact Q. }
  destruct N as [ev1 T1]. assert (evs = ev1 ++ ev2) as ->.
  { rewrite T2, T1, <- app_assoc in T. apply app_inv_head in T. symmetry. exact T. }
  apply concur_app in C. destruct C as [C1 C2].
  rewrite (asked_step e cb vcb chan s input script r out s1 ev1 E T1 C1). cbn [snd].
  destruct (IH s1 ev2 T2) as [-> ->]; [rewrite T1; exact C2|]. split; reflexivity.
Qed.

(** Applications that do the same about what is documented. *)
Theorem asked_documented e cb vcb chan s input script :
  (forall tr ev, documented (s_mech s) ev -> alike e (another e cb vcb chan) tr ev) ->
  step (another e cb vcb chan) s input script = step e s input script.
Proof.
  intros H. destruct (step e s input script) as [[r out] s'] eqn:E.
  pose proof E as E0. unfold step, run in E0.
  destruct (mech_step e input (s_mech s) (mk_world [] script (s_trace s) (s_rng s) (s_val s))) as [[r1 m1] w1] eqn:E1.
  destruct (mech_step_loc e cb vcb chan input _ _ _ _ _ E1) as (evs & T & _). cbn [w_trace] in T.
  assert (N : new_events s s' evs). { injection E0 as <- <- <-. exact T. }
  apply (asked_step _ _ _ _ _ _ _ _ _ _ _ E N).
  pose proof (only_documented _ _ _ _ _ _ _ _ E N) as D. clear - H D.
  generalize (s_trace s) as tr. induction D as [|ev evs D1 D2 IH]; intros tr; cbn [concur]; auto.
Qed.

Lemma exec_loc {T A} e cb vcb chan (p : prog T A) :
  loc e (another e cb vcb chan) (exec e p) (exec (another e cb vcb chan) p).
Proof.
  induction p as [A r|A k IH|A t k IH|A d k IH|A d k IH|A k IH|A G q c f IHf k IH
                 |A G n c f IHf k IH|A q c v k IH|A c k IH]; cbn [exec].
  - apply loc_of_res.
  - apply loc_bind; [apply loc_getl|exact IH].
  - apply loc_bind; [apply loc_setl|intros _; exact IH].
  - apply loc_bind; [apply loc_write_once|exact IH].
  - apply loc_bind; [apply loc_catch, loc_write_all|intros x; apply IH].
  - apply loc_bind; [apply loc_draw; reflexivity|exact IH].
  - apply loc_bind; [apply loc_catch, loc_maybe_need_with; [reflexivity|exact IHf]|exact IH].
  - apply loc_bind; [apply loc_catch, loc_maybe_need_cb_data; [reflexivity|exact IHf]|exact IH].
  - apply loc_bind; [apply loc_catch, loc_action; reflexivity|intros x; apply IH].
  - apply loc_bind; [apply loc_catch, loc_validate; reflexivity|intros x; apply IH].
Qed.
Theorem asked_custom {T} e cb vcb chan (m : custom T) s input script r out s' evs :
  cstep e m s input script = (r, out, s') -> cs_trace s' = cs_trace s ++ evs ->
  concur e (another e cb vcb chan) (cs_trace s) evs ->
  cstep (another e cb vcb chan) m s input script = (r, out, s').
Proof.
  unfold cstep. intros H N C.
  destruct (exec e (m input) (cs_state s) (mk_world [] script (cs_trace s) (cs_rng s) (cs_val s))) as [[r1 m1] w1] eqn:E.
  destruct (exec_loc e cb vcb chan (m input) _ _ _ _ _ E) as (evs1 & T1 & K). cbn [w_trace] in T1, K.
  injection H as <- <- <-. cbn [cs_trace] in N. rewrite T1 in N. apply app_inv_head in N. subst evs1.
  rewrite (K C). reflexivity.
Qed.

Lemma mech_step_kind e input m w r m' w' : mech_step e input m w = (r, m', w') ->
  forall ev, documented m' ev -> documented m ev.
Proof.
  unfold mech_step, bind, getl. destruct m; intros H; apply on_eq in H; destruct H as [l' [_ ->]];
    intros ev D; destruct ev; cbn [documented binds_channel] in *; try exact D;
    (destruct D as (k & D); exists k;
     try (destruct D as (D & A); split; [|exact A]); inversion D; subst; constructor; assumption).
Qed.
Theorem asked_unrelated e cb vcb chan l : forall s,
  (forall tr ev, documented (s_mech s) ev -> alike e (another e cb vcb chan) tr ev) ->
  dialogue (another e cb vcb chan) s l = dialogue e s l /\ after (another e cb vcb chan) s l = after e s l.
Proof.
  induction l as [|[input script] l IH]; intros s H; [split; reflexivity|]. cbn [dialogue after].
  rewrite (asked_documented e cb vcb chan s input script H).
  destruct (step e s input script) as [[r out] s1] eqn:E. cbn [snd].
  destruct (IH s1) as [-> ->]; [|split; reflexivity].
  intros tr ev D. apply H. unfold step, run in E.
  destruct (mech_step e input (s_mech s) (mk_world [] script (s_trace s) (s_rng s) (s_val s))) as [[r1 m1] w1] eqn:E1.
  injection E as <- <- <-. exact (mech_step_kind _ _ _ _ _ _ _ E1 _ D).
Qed.
Theorem asked_kinds e cb vcb chan s l :
  (forall q k, requests (s_mech s) q k -> forall tr c, same_reply q (e_cb e tr (e_sd e) c (RSatisfy q)) (cb tr (e_sd e) c (RSatisfy q))) ->
  (forall q k, acts (s_mech s) q k -> forall tr c, same_taking q (e_cb e tr (e_sd e) c (RAction q)) (cb tr (e_sd e) c (RAction q))) ->
  (forall k, answered_by (s_mech s) k -> forall tr c,
     same_verdict (e_vtag e) (e_vcb e tr (e_sd e) c) (vcb tr (e_sd e) c)) ->
  (binds_channel (s_mech s) -> forall name, chan name = e_chan e name) ->
  dialogue (another e cb vcb chan) s l = dialogue e s l /\ after (another e cb vcb chan) s l = after e s l.
Proof.
  intros H1 H2 H3 H4. apply asked_unrelated. intros tr ev D. destruct ev; cbn [documented alike] in *; try exact I.
  - destruct D as (k & D & _). exact (H1 _ _ D _ _).
  - destruct D as (k & D & _). exact (H2 _ _ D _ _).
  - destruct D as (k & D & _). exact (H3 _ D _ _).
  - exact (H4 D _).
Qed.

Lemma reply_first q vals : same_reply q
  match first_for q vals with Some v => CSatisfy q v CRet | None => CRet None end (offers vals).
Proof.
  induction vals as [|[p v] vals IH]; cbn [offers first_for]; [constructor|].
  destruct (prop_eq_dec p q) as [E|N].
  - destruct E. cbn [eq_rect]. apply sr_satisfy. intros x. constructor.
  - eapply sr_skip'; [apply ps_satisfy, N|exact IH].
Qed.
Lemma offers_reply q vals vals' : first_for q vals = first_for q vals' ->
  same_reply q (offers vals) (offers vals').
Proof.
  intros H. induction vals as [|[p v] vals IH]; cbn [offers first_for] in *.
  - pose proof (reply_first q vals') as R. rewrite <- H in R. exact R.
  - destruct (prop_eq_dec p q) as [E|N].
    + destruct E. cbn [eq_rect] in H. clear IH. induction vals' as [|[p' v'] vals' IH]; cbn [offers first_for] in *.
      * discriminate H.
      * destruct (prop_eq_dec p' p) as [E|N]; [|eapply sr_skip'; [apply ps_satisfy, N|apply IH, H]].
        destruct E. cbn [eq_rect] in H. injection H as <-.
        apply sr_satisfy. intros x. constructor.
    + eapply sr_skip; [apply ps_satisfy, N|apply IH, H].
Qed.
Lemma offers_taking q vals vals' : same_taking q (offers vals) (offers vals').
Proof.
  induction vals as [|[p v] vals IH]; cbn [offers].
  - induction vals' as [|[p v] vals' IH]; cbn [offers]; [constructor|].
    eapply st_skip'; [apply ig_satisfy|exact IH].
  - eapply st_skip; [apply ig_satisfy|exact IH].
Qed.
Theorem asked_credentials e vals vals' s l : e_cb e = (fun _ _ _ _ => offers vals) ->
  (forall q k, requests (s_mech s) q k -> first_for q vals = first_for q vals') ->
  let e' := another e (fun _ _ _ _ => offers vals') (e_vcb e) (e_chan e) in
  dialogue e' s l = dialogue e s l /\ after e' s l = after e s l.
Proof.
  intros He H e'. apply asked_kinds; rewrite ?He; auto.
  - intros q k R tr c. apply offers_reply. eapply H, R.
  - intros q k R tr c. apply offers_taking.
  - intros. apply verdict_refl.
Qed.

Theorem asked_transfers e cb vcb chan s input script :
  session_encode (another e cb vcb chan) s input script = session_encode e s input script /\
  session_decode (another e cb vcb chan) s input script = session_decode e s input script.
Proof. split; reflexivity. Qed.
