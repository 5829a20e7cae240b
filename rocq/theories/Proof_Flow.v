From Coq Require Import Lia Eqdep_dec.
From Verif Require Import Bytes Base64 Types World WorldFacts Simple OAuth Scram Gssapi Session Frame
  Spec_Flow.
Open Scope m_scope.

Section Rel.
Context (vr : forall q, pval q -> pval q -> Prop).

Record wrel (w w' : world) : Prop := {
  wr_out : w_out w' = w_out w;
  wr_script : w_script w' = w_script w;
  wr_rng : w_rng w' = w_rng w;
  wr_trace : Forall2 (event_rel vr) (w_trace w) (w_trace w');
  wr_val : w_val w = None <-> w_val w' = None }.

Definition mrel {L A} (m m' : M L A) : Prop := forall l w w', wrel w w' ->
  match m l w, m' l w' with
  | (r, l1, w1), (r', l1', w1') => r' = r /\ l1' = l1 /\ wrel w1 w1'
  end.

Lemma mrel_ret {L A} (a : A) : mrel (@ret L A a) (ret a).
Proof. intros l w w' H. cbn. auto. Qed.
Lemma mrel_fail {L A} x : mrel (@fail L A x) (fail x).
Proof. intros l w w' H. cbn. auto. Qed.
Lemma mrel_panic {L A} : mrel (@panic L A) panic.
Proof. intros l w w' H. cbn. auto. Qed.
Lemma mrel_getl {L} : mrel (@getl L) getl.
Proof. intros l w w' H. cbn. auto. Qed.
Lemma mrel_setl {L} (x : L) : mrel (setl x) (setl x).
Proof. intros l w w' H. cbn. auto. Qed.
Lemma mrel_of_res {L A} (r : res serr A) : mrel (@of_res L A r) (of_res r).
Proof. intros l w w' H. cbn. auto. Qed.
Lemma mrel_bind {L A B} (m m' : M L A) (f f' : A -> M L B) :
  mrel m m' -> (forall a, mrel (f a) (f' a)) -> mrel (bind m f) (bind m' f').
Proof.
  intros Hm Hf l w w' H. unfold bind. specialize (Hm l w w' H).
  destruct (m l w) as [[r l1] w1], (m' l w') as [[r' l1'] w1']. destruct Hm as [-> [-> Hw]].
  destruct r as [a|x|]; auto. apply Hf; assumption.
Qed.
Lemma mrel_locally {L L' A} (l0 : L') (m m' : M L' A) :
  mrel m m' -> mrel (@locally L L' A l0 m) (locally l0 m').
Proof.
  intros Hm l w w' H. unfold locally. specialize (Hm l0 w w' H).
  destruct (m l0 w) as [[r l1] w1], (m' l0 w') as [[r' l1'] w1']. destruct Hm as [-> [-> Hw]].
  destruct r as [a|x|]; auto.
Qed.
Lemma mrel_ignore {L A} (m m' : M L A) : mrel m m' -> mrel (ignore m) (ignore m').
Proof.
  intros Hm l w w' H. unfold ignore. specialize (Hm l w w' H).
  destruct (m l w) as [[r l1] w1], (m' l w') as [[r' l1'] w1']. destruct Hm as [-> [-> Hw]].
  destruct r as [a|x|]; auto.
Qed.
Lemma mrel_on {L A} (wrap : L -> mech) l0 (m m' : M L A) :
  mrel m m' -> mrel (on wrap l0 m) (on wrap l0 m').
Proof.
  intros Hm l w w' H. unfold on. specialize (Hm l0 w w' H).
  destruct (m l0 w) as [[r l1] w1], (m' l0 w') as [[r' l1'] w1']. destruct Hm as [-> [-> Hw]].
  auto.
Qed.

Lemma wrel_event w w' ev ev' :
  wrel w w' -> event_rel vr ev ev' -> wrel (add_event ev w) (add_event ev' w').
Proof.
  intros [Ho Hs Hr Ht Hv] He. split; cbn; auto. apply Forall2_app; auto.
Qed.
Lemma mrel_log {L} ev : mrel (@log L ev) (log ev).
Proof. intros l w w' H. cbn. repeat split; try apply H. apply wrel_event; auto. constructor. Qed.

Lemma write1_rel data w w' : wrel w w' ->
  match write1 data w, write1 data w' with (r, w1), (r', w1') => r' = r /\ wrel w1 w1' end.
Proof.
  intros [Ho Hs Hr Ht Hv]. unfold write1. rewrite Hs.
  destruct (w_script w) as [|[| |] sc]; cbn;
    (split; [reflexivity|]); split; cbn; congruence.
Qed.

Lemma write_all_fuel_rel n data w w' : wrel w w' ->
  match write_all_fuel n data w, write_all_fuel n data w' with
  | (r, w1), (r', w1') => r' = r /\ wrel w1 w1'
  end.
Proof.
  revert data w w'. induction n as [|n IH]; intros data w w' H;
    destruct data as [|b data]; cbn [write_all_fuel]; auto.
  pose proof (write1_rel (b :: data) w w' H) as H1.
  destruct (write1 (b :: data) w) as [r w1], (write1 (b :: data) w') as [r' w1'].
  destruct H1 as [-> H1]. destruct r as [x|[[|k]|]]; auto; apply IH; assumption.
Qed.
Lemma mrel_write_all {L} data : mrel (@write_all L data) (write_all data).
Proof.
  intros l w w' H. unfold write_all. rewrite (wr_script _ _ H).
  pose proof (write_all_fuel_rel (S (length (w_script w))) data w w' H) as H1.
  destruct (write_all_fuel _ data w) as [r w1], (write_all_fuel _ data w') as [r' w1'].
  destruct H1; auto.
Qed.
Lemma vec_inner_rel bufs w w' : wrel w w' ->
  match vec_inner bufs w, vec_inner bufs w' with (r, w1), (r', w1') => r' = r /\ wrel w1 w1' end.
Proof.
  intros H. destruct bufs as [|b bufs]; cbn [vec_inner]; auto.
  pose proof (write1_rel (concat (b :: bufs)) w w' H) as H1.
  destruct (write1 (concat (b :: bufs)) w) as [r w1], (write1 (concat (b :: bufs)) w') as [r' w1'].
  destruct H1 as [-> H1]. destruct r as [x|[k|]]; auto.
  destruct (count_removed (b :: bufs) 0 k) as [rm acc]. destruct (skipn rm (b :: bufs)); auto.
Qed.
Lemma vec_loop_rel n bufs k w w' : wrel w w' ->
  match vec_loop n bufs k w, vec_loop n bufs k w' with
  | (r, w1), (r', w1') => r' = r /\ wrel w1 w1'
  end.
Proof.
  revert bufs k w w'. induction n as [|n IH]; intros bufs k w w' H; cbn [vec_loop]; auto.
  pose proof (vec_inner_rel bufs w w' H) as H1.
  destruct (vec_inner bufs w) as [r w1], (vec_inner bufs w') as [r' w1']. destruct H1 as [-> H1].
  destruct r as [x|[[|len] [|b bs]]]; auto; apply IH; assumption.
Qed.
Lemma mrel_write_all_vectored {L} bufs :
  mrel (@write_all_vectored L bufs) (write_all_vectored bufs).
Proof.
  intros l w w' H. unfold write_all_vectored. rewrite (wr_script _ _ H).
  destruct bufs as [|b bufs]; auto.
  pose proof (vec_loop_rel (S (S (length (w_script w)))) (b :: bufs) 0 w w' H) as H1.
  destruct (vec_loop _ (b :: bufs) 0 w) as [r w1], (vec_loop _ (b :: bufs) 0 w') as [r' w1'].
  destruct H1; auto.
Qed.

Context (e : env) (cb' : callback_of) (vcb' : validator_of) (kdf : kdf_of)
  (Hap : apps_rel vr (e_sd e) (e_cb e) cb' (e_vcb e) vcb').

Lemma mrel_draws {L} n : mrel (@draws L e n) (draws (set_apps e cb' vcb' kdf) n).
Proof.
  induction n as [|n IH]; cbn [draws]; [apply mrel_ret|].
  apply mrel_bind; [|intros x; apply mrel_bind; [exact IH|intros; apply mrel_ret]].
  intros l w w' H. cbn. rewrite (wr_rng _ _ H). destruct H as [Ho Hs Hr Ht Hv].
  repeat split; cbn; auto; apply Hv.
Qed.
Lemma mrel_write_json {L} x :
  mrel (@write_json L e x) (write_json (set_apps e cb' vcb' kdf) x).
Proof.
  intros l w w' H. unfold write_json.
  pose proof (mrel_write_all (L := L) (e_json_to e x) l w w' H) as H1.
  change (e_json_to (set_apps e cb' vcb' kdf) x) with (e_json_to e x).
  destruct (write_all _ l w) as [[r l1] w1], (write_all _ l w') as [[r' l1'] w1'].
  destruct H1 as [-> [-> H1]]. destruct r; auto.
Qed.
Lemma mrel_ob_write_kv {L} kv : mrel (@ob_write_kv L kv) (ob_write_kv kv).
Proof.
  induction kv as [|[k v] kv IH]; cbn [ob_write_kv]; [apply mrel_ret|].
  apply mrel_bind; [apply mrel_write_all_vectored|intros; exact IH].
Qed.

Lemma cr_satisfy_rel {L G} q (f f' : pval q -> M L G) st v v' l w w' :
  (forall v v', vr q v v' -> mrel (f v) (f' v')) -> vr q v v' -> wrel w w' ->
  match cr_satisfy q f st v l w, cr_satisfy q f' st v' l w' with
  | (r, st1, l1, w1), (r', st1', l1', w1') => r' = r /\ st1' = st1 /\ l1' = l1 /\ wrel w1 w1'
  end.
Proof.
  intros Hf Hv H. unfold cr_satisfy. destruct st; auto.
  unfold bind, log.
  assert (H0 : wrel (add_event (EvAnswer q v) w) (add_event (EvAnswer q v') w')).
  { apply wrel_event; auto. apply ER_answer, Hv. }
  specialize (Hf v v' Hv l _ _ H0).
  destruct (f v l _) as [[r l1] w1], (f' v' l _) as [[r' l1'] w1']. destruct Hf as [-> [-> H1]].
  destruct r; auto.
Qed.

Lemma castp_refl q (v : pval q) : @castp q q v = Some v.
Proof.
  unfold castp. destruct (prop_eq_dec q q) as [E|N]; [|congruence].
  rewrite (UIP_dec prop_eq_dec E eq_refl). reflexivity.
Qed.
Lemma castp_other p q (v : pval p) : p <> q -> @castp p q v = None.
Proof. intros N. unfold castp. destruct (prop_eq_dec p q); [contradiction|reflexivity]. Qed.

Lemma run_satisfy_rel {L G} q (f f' : pval q -> M L G) p p' :
  (forall v v', vr q v v' -> mrel (f v) (f' v')) -> answers_rel vr p p' ->
  forall st l w w', wrel w w' ->
  match run_satisfy q f p st l w, run_satisfy q f' p' st l w' with
  | (r, st1, l1, w1), (r', st1', l1', w1') => r' = r /\ st1' = st1 /\ l1' = l1 /\ wrel w1 w1'
  end.
Proof.
  intros Hf Hp. induction Hp as [r|p v v' k k' Hv _ IH|p v v' k k' Hv _ IH|p x k k' _ IH
    |p k k' _ IH|p k k' _ IH]; intros st l w w' H; cbn [run_satisfy]; auto.
  - destruct (prop_eq_dec p q) as [->|N].
    + rewrite !castp_refl.
      pose proof (cr_satisfy_rel q f f' st v v' l w w' Hf Hv H) as H1.
      destruct (cr_satisfy q f st v l w) as [[[r st1] l1] w1],
        (cr_satisfy q f' st v' l w') as [[[r' st1'] l1'] w1'].
      destruct H1 as [-> [-> [-> H1]]]. destruct r as [u|x|]; auto; apply IH; assumption.
    + rewrite !castp_other by assumption. apply IH; assumption.
  - destruct (prop_eq_dec p q) as [->|N]; [|apply IH; assumption].
    rewrite !castp_refl. cbn zeta.
    assert (H0 : wrel (add_event (EvClosure q) w) (add_event (EvClosure q) w')).
    { apply wrel_event; auto. constructor. }
    pose proof (cr_satisfy_rel q f f' st v v' l _ _ Hf Hv H0) as H1.
    destruct (cr_satisfy q f st v l _) as [[[r st1] l1] w1],
      (cr_satisfy q f' st v' l _) as [[[r' st1'] l1'] w1'].
    destruct H1 as [-> [-> [-> H1]]]. destruct r as [u|x|]; auto; apply IH; assumption.
  - destruct (prop_eq_dec p q) as [->|N]; [|apply IH; assumption]. cbn zeta.
    apply IH. apply wrel_event; auto. constructor.
  - apply IH; assumption.
  - apply IH; assumption.
Qed.

Lemma mrel_maybe_need_with {L G} q c (f f' : pval q -> M L G) :
  (forall v v', vr q v v' -> mrel (f v) (f' v')) ->
  mrel (maybe_need_with e q c f) (maybe_need_with (set_apps e cb' vcb' kdf) q c f').
Proof.
  intros Hf l w w' H. unfold maybe_need_with.
  assert (H0 : wrel (add_event (EvRequest q c) w) (add_event (EvRequest q c) w')).
  { apply wrel_event; auto. constructor. }
  pose proof (run_satisfy_rel q f f' _ _ Hf
    (proj1 (Hap _ _ (wr_trace _ _ H)) c (RSatisfy q)) CrOpen l _ _ H0) as H1.
  change (e_cb (set_apps e cb' vcb' kdf)) with cb'.
  change (e_sd (set_apps e cb' vcb' kdf)) with (e_sd e). cbn zeta.
  destruct (run_satisfy q f _ _ l _) as [[[r st1] l1] w1],
    (run_satisfy q f' _ _ l _) as [[[r' st1'] l1'] w1'].
  destruct H1 as [-> [-> [-> H1]]]. destruct r as [r|x|]; auto.
  destruct (mask_early r) as [[]|]; auto.
Qed.
Lemma mrel_need_with {L G} q c (f f' : pval q -> M L G) :
  (forall v v', vr q v v' -> mrel (f v) (f' v')) ->
  mrel (need_with e q c f) (need_with (set_apps e cb' vcb' kdf) q c f').
Proof.
  intros Hf. unfold need_with. apply mrel_bind; [apply mrel_maybe_need_with; assumption|].
  intros [g|]; [apply mrel_ret|apply mrel_fail].
Qed.
Lemma mrel_maybe_need_cb_data {L G} name c (f f' : bytes -> M L G) :
  (forall v : bytes, mrel (f v) (f' v)) ->
  (forall v v', vr PChannelBindings v v' -> v = v') ->
  mrel (maybe_need_cb_data e name c f) (maybe_need_cb_data (set_apps e cb' vcb' kdf) name c f').
Proof.
  intros Hf Hq. unfold maybe_need_cb_data. apply mrel_bind; [apply mrel_log|]. intros _.
  change (e_chan (set_apps e cb' vcb' kdf)) with (e_chan e).
  destruct (e_chan e name).
  - apply mrel_bind; [apply Hf|]. intros; apply mrel_ret.
  - apply mrel_maybe_need_with. intros v v' Hv. apply Hq in Hv. subst. apply Hf.
Qed.
Lemma mrel_need_cb_data {L G} name c (f f' : bytes -> M L G) :
  (forall v : bytes, mrel (f v) (f' v)) ->
  (forall v v', vr PChannelBindings v v' -> v = v') ->
  mrel (need_cb_data e name c f) (need_cb_data (set_apps e cb' vcb' kdf) name c f').
Proof.
  intros Hf Hq. unfold need_cb_data. apply mrel_bind; [apply mrel_maybe_need_cb_data; assumption|].
  intros [g|]; [apply mrel_ret|apply mrel_fail].
Qed.

Lemma run_action_rel q p p' : answers_rel vr p p' ->
  forall slot tr tr', Forall2 (event_rel vr) tr tr' ->
  match run_action q p slot tr, run_action q p' slot tr' with
  | (r, s1, t1), (r', s1', t1') => r' = r /\ s1' = s1 /\ Forall2 (event_rel vr) t1 t1'
  end.
Proof.
  intros Hp. induction Hp as [r|p v v' k k' Hv _ IH|p v v' k k' Hv _ IH|p x k k' _ IH
    |p k k' _ IH|p k k' _ IH]; intros slot tr tr' H; cbn [run_action]; auto;
    try (apply IH; assumption).
  destruct (prop_eq_dec p q) as [E|N]; [|apply IH; assumption].
  destruct slot as [v|]; [|apply IH; assumption].
  apply IH. apply Forall2_app; auto. repeat constructor.
Qed.
Lemma mrel_action {L} q c v :
  mrel (@action L e q c v) (action (set_apps e cb' vcb' kdf) q c v).
Proof.
  intros l w w' H. unfold action.
  change (e_cb (set_apps e cb' vcb' kdf)) with cb'.
  change (e_sd (set_apps e cb' vcb' kdf)) with (e_sd e). cbn zeta.
  pose proof (run_action_rel q _ _ (proj1 (Hap _ _ (wr_trace _ _ H)) c (RAction q)) (Some v)
    (w_trace w ++ [EvAction q v c]) (w_trace w' ++ [EvAction q v c])
    (Forall2_app (wr_trace _ _ H) (Forall2_cons _ _ (ER_same _ _) (Forall2_nil _)))) as H1.
  destruct (run_action q _ (Some v) (w_trace w ++ _)) as [[r s1] t1],
    (run_action q _ (Some v) (w_trace w' ++ _)) as [[r' s1'] t1'].
  destruct H1 as [-> [-> H1]]. destruct H as [Ho Hs Hr Ht Hv].
  assert (Hw : wrel (mk_world (w_out w) (w_script w) t1 (w_rng w) (w_val w))
    (mk_world (w_out w') (w_script w') t1' (w_rng w') (w_val w'))) by (split; cbn; auto).
  destruct (mask_early r); auto. destruct s1; auto.
Qed.

Lemma run_validate_rel tag p p' : values_rel p p' -> forall x x', (x = None <-> x' = None) ->
  match run_validate tag p x, run_validate tag p' x' with
  | (r, y), (r', y') => r' = r /\ (y = None <-> y' = None)
  end.
Proof.
  intros Hp. induction Hp as [r|t x x' k k' _ IH|t x x' k k' _ IH|t y k k' _ IH|t k k' _ IH];
    intros z z' Hz; cbn [run_validate]; auto.
  - apply IH. destruct (Nat.eqb t tag); auto.
    destruct z, z'; auto; split; intros; try discriminate; exfalso; destruct Hz; intuition congruence.
  - destruct (Nat.eqb t tag); [|apply IH; assumption].
    destruct z, z'; try (apply IH; assumption); try (exfalso; intuition congruence).
    apply IH. split; discriminate.
  - destruct (Nat.eqb t tag); [|apply IH; assumption].
    destruct z, z'; try (apply IH; assumption); exfalso; intuition congruence.
  - apply IH; assumption.
Qed.
Lemma mrel_validate {L} c : mrel (@validate L e c) (validate (set_apps e cb' vcb' kdf) c).
Proof.
  intros l w w' H. unfold validate.
  change (e_vcb (set_apps e cb' vcb' kdf)) with vcb'.
  change (e_sd (set_apps e cb' vcb' kdf)) with (e_sd e).
  change (e_vtag (set_apps e cb' vcb' kdf)) with (e_vtag e). cbn zeta.
  pose proof (run_validate_rel (e_vtag e) _ _ (proj2 (Hap _ _ (wr_trace _ _ H)) c)
    (w_val w) (w_val w') (wr_val _ _ H)) as H1.
  destruct (run_validate (e_vtag e) _ (w_val w)) as [r y],
    (run_validate (e_vtag e) _ (w_val w')) as [r' y'].
  destruct H1 as [-> H1]. destruct H as [Ho Hs Hr Ht Hv].
  assert (Hw : wrel (mk_world (w_out w) (w_script w) (w_trace w ++ [EvValidate c]) (w_rng w) y)
    (mk_world (w_out w') (w_script w') (w_trace w' ++ [EvValidate c]) (w_rng w') y')).
  { split; cbn; auto. apply Forall2_app; auto. repeat constructor. }
  destruct r; auto.
Qed.
End Rel.

(** One structural step, chosen by the head of the term; [H] relates the applications. *)
Ltac rel_step H :=
  lazymatch goal with
  | |- mrel _ (ret _) _ => apply mrel_ret
  | |- mrel _ (fail _) _ => apply mrel_fail
  | |- mrel _ panic _ => apply mrel_panic
  | |- mrel _ getl _ => apply mrel_getl
  | |- mrel _ (setl _) _ => apply mrel_setl
  | |- mrel _ (of_res _) _ => apply mrel_of_res
  | |- mrel _ (bind _ _) _ => apply mrel_bind; [|intros ?]
  | |- mrel _ (locally _ _) _ => apply mrel_locally
  | |- mrel _ (ignore _) _ => apply mrel_ignore
  | |- mrel _ (on _ _ _) _ => apply mrel_on
  | |- mrel _ (need_with _ _ _ _) _ => apply (mrel_need_with _ _ _ _ _ H); intros ? ? ?
  | |- mrel _ (maybe_need_with _ _ _ _) _ =>
      apply (mrel_maybe_need_with _ _ _ _ _ H); intros ? ? ?
  | |- mrel _ (need_cb_data _ _ _ _) _ => apply (mrel_need_cb_data _ _ _ _ _ H); intros ?
  | |- mrel _ (maybe_need_cb_data _ _ _ _) _ =>
      apply (mrel_maybe_need_cb_data _ _ _ _ _ H); intros ?
  | |- mrel _ (action _ _ _ _) _ => apply (mrel_action _ _ _ _ _ H)
  | |- mrel _ (validate _ _) _ => apply (mrel_validate _ _ _ _ _ H)
  | |- mrel _ (write_all_vectored _) _ => apply mrel_write_all_vectored
  | |- mrel _ (write_all _) _ => apply mrel_write_all
  | |- mrel _ (write_json _ _) _ => apply mrel_write_json
  | |- mrel _ (ob_write_kv _) _ => apply mrel_ob_write_kv
  | |- mrel _ (draws _ _) _ => apply mrel_draws
  | |- mrel _ (log _) _ => apply mrel_log
  | |- mrel _ (match ?x with _ => _ end) (match ?y with _ => _ end) => change y with x; destruct x
  | |- mrel _ (scram_parse _) _ => unfold scram_parse
  | |- mrel _ (scram_proto _) _ => unfold scram_proto
  | |- mrel _ (exact _ _) _ => unfold exact
  | |- mrel _ (gss_try _) _ => unfold gss_try
  | |- mrel _ gss_err _ => unfold gss_err
  end.

Lemma mech_step_same e cb' vcb' input :
  apps_rel same_answer (e_sd e) (e_cb e) cb' (e_vcb e) vcb' ->
  mrel same_answer (mech_step e input) (mech_step (set_apps e cb' vcb' (e_pbkdf2 e)) input).
Proof.
  intros H. unfold mech_step. rel_step H; [rel_step H|].
  destruct a; unfold_steps;
  repeat (first
    [ rel_step H
    | match goal with
      | E : same_answer _ _ _ |- _ => unfold same_answer in E; subst; cbv beta
      end
    | intros ? E; exact E ]).
Qed.

Lemma scram_client_step_rel kdf e cb' vcb' a input :
  apps_rel (same_key (e_pbkdf2 e) kdf) (e_sd e) (e_cb e) cb' (e_vcb e) vcb' ->
  mrel (same_key (e_pbkdf2 e) kdf) (scram_client_step e a input)
    (scram_client_step (set_apps e cb' vcb' kdf) a input).
Proof.
  intros H.
  assert (Hq : forall q v v', q <> PPassword -> same_key (e_pbkdf2 e) kdf q v v' -> v = v').
  { intros q v v' N E. destruct E; [reflexivity|contradiction]. }
  assert (Hp : forall v v' : pval PPassword, same_key (e_pbkdf2 e) kdf PPassword v v' ->
    forall a salt i, e_pbkdf2 e a v salt i = kdf a v' salt i).
  { intros v v' E.
    refine (match E in same_key _ _ q x x' return
              match q return pval q -> pval q -> Prop with
              | PPassword => fun x x' => forall a salt i, e_pbkdf2 e a x salt i = kdf a x' salt i
              | _ => fun _ _ => True
              end x x' with
            | SK_other _ _ q v N => _
            | SK_password _ _ p p' E => E
            end).
    destruct q; try exact I. congruence. }
  unfold_steps.
  repeat (first
    [ rel_step H
    | match goal with
      | E : same_key _ _ PPassword _ _ |- mrel _ (ret _) (ret _) => fail 1
      | E : same_key _ _ ?q _ _ |- _ => apply Hq in E; [subst; cbv beta|discriminate]
      end
    | intros; apply Hq; [discriminate|assumption] ]).
  match goal with E : same_key _ _ PPassword _ _ |- _ => rewrite (Hp _ _ E) end.
  apply mrel_ret.
Qed.

Lemma run_rel vr {A} (m m' : M mech A) s s' script :
  mrel vr m m' -> session_rel vr s s' ->
  match run m s script, run m' s' script with
  | (r, out, t), (r', out', t') => r' = r /\ out' = out /\ session_rel vr t t'
  end.
Proof.
  intros Hm [Em Er Et Ev]. unfold run. rewrite Em, Er.
  assert (Hw : wrel vr (mk_world [] script (s_trace s) (s_rng s) (s_val s))
    (mk_world [] script (s_trace s') (s_rng s) (s_val s'))) by (split; cbn; auto).
  specialize (Hm (s_mech s) _ _ Hw).
  destruct (m (s_mech s) _) as [[r l1] w1], (m' (s_mech s) _) as [[r' l1'] w1'].
  destruct Hm as [-> [-> [Ho Hs Hr Ht Hv]]]. repeat split; auto; apply Hv.
Qed.

(** A dialogue of which each step is related to the one on the other side. *)
Lemma dialogue_rel vr e e' (P : session -> Prop) l :
  (forall s s' input script, P s -> session_rel vr s s' ->
    match step e s input script, step e' s' input script with
    | (r, out, t), (r', out', t') => r' = r /\ out' = out /\ session_rel vr t t' /\ P t
    end) ->
  forall s s', P s -> session_rel vr s s' ->
    dialogue e' s' l = dialogue e s l /\ session_rel vr (after e s l) (after e' s' l).
Proof.
  intros H. induction l as [|[input script] l IH]; intros s s' Hp Hs; cbn [dialogue after]; auto.
  specialize (H s s' input script Hp Hs).
  destruct (step e s input script) as [[r out] t], (step e' s' input script) as [[r' out'] t'].
  destruct H as [-> [-> [Ht HP]]]. destruct (IH t t' HP Ht) as [E1 E2].
  rewrite E1. auto.
Qed.

Lemma flow_values e cb' vcb' s s' l :
  apps_rel same_answer (e_sd e) (e_cb e) cb' (e_vcb e) vcb' -> session_rel same_answer s s' ->
  dialogue (set_apps e cb' vcb' (e_pbkdf2 e)) s' l = dialogue e s l /\
  session_rel same_answer (after e s l) (after (set_apps e cb' vcb' (e_pbkdf2 e)) s' l).
Proof.
  intros Ha Hs. apply (dialogue_rel _ _ _ (fun _ => True)); auto.
  intros t t' input script _ Ht. unfold step.
  pose proof (run_rel _ _ _ t t' script (mech_step_same e cb' vcb' input Ha) Ht) as H.
  destruct (run (mech_step e input) t script) as [[r out] t1],
    (run (mech_step (set_apps e cb' vcb' (e_pbkdf2 e)) input) t' script) as [[r' out'] t1'].
  intuition.
Qed.

Lemma flow_password e cb' vcb' kdf s s' a st l :
  s_mech s = XScramC a st ->
  apps_rel (same_key (e_pbkdf2 e) kdf) (e_sd e) (e_cb e) cb' (e_vcb e) vcb' ->
  session_rel (same_key (e_pbkdf2 e) kdf) s s' ->
  dialogue (set_apps e cb' vcb' kdf) s' l = dialogue e s l /\
  session_rel (same_key (e_pbkdf2 e) kdf) (after e s l) (after (set_apps e cb' vcb' kdf) s' l).
Proof.
  intros Em Ha Hs. apply (dialogue_rel _ _ _ (fun s => exists st, s_mech s = XScramC a st)); eauto.
  clear - Ha. intros t t' input script [st Em] Ht. unfold step.
  assert (Hm : mrel (same_key (e_pbkdf2 e) kdf)
    (on (XScramC a) st (scram_client_step e a input))
    (on (XScramC a) st (scram_client_step (set_apps e cb' vcb' kdf) a input))).
  { apply mrel_on, scram_client_step_rel, Ha. }
  pose proof (run_rel _ _ _ t t' script Hm Ht) as H.
  assert (E1 : run (mech_step e input) t script
    = run (on (XScramC a) st (scram_client_step e a input)) t script).
  { unfold run, mech_step, bind, getl. rewrite Em. reflexivity. }
  assert (E2 : run (mech_step (set_apps e cb' vcb' kdf) input) t' script
    = run (on (XScramC a) st (scram_client_step (set_apps e cb' vcb' kdf) a input)) t' script).
  { unfold run, mech_step, bind, getl. rewrite (sn_mech _ _ _ Ht), Em. reflexivity. }
  rewrite E1, E2.
  destruct (run (on (XScramC a) st (scram_client_step e a input)) t script) as [[r out] t1] eqn:E,
    (run (on (XScramC a) st (scram_client_step (set_apps e cb' vcb' kdf) a input)) t' script)
      as [[r' out'] t1'].
  destruct H as [-> [-> H]]. repeat split; try apply H.
  unfold run, on in E.
  destruct (scram_client_step e a input st _) as [[r0 l0] w0]. injection E as _ _ <-. cbn. eauto.
Qed.
