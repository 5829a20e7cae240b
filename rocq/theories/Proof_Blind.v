(** Lemmas for C125: what is left of a step if the history does not matter. *)
From Verif Require Import Bytes Types World CallbackSpec WorldFacts Simple OAuth Scram Gssapi Session Spec_Flow
  Spec_Decline Spec_Authzid Proof_Simple.
Open Scope m_scope.

(** The same but for the history. *)
Definition wsame (w w' : world) : Prop :=
  w_out w' = w_out w /\ w_script w' = w_script w /\ w_rng w' = w_rng w /\ w_val w' = w_val w.
Definition mblind {L A} (m m' : M L A) : Prop := forall l w w', wsame w w' ->
  match m l w, m' l w' with (r, l1, w1), (r', l1', w1') => r' = r /\ l1' = l1 /\ wsame w1 w1' end.

Lemma blind_pure {L A} (g : L -> res serr A * L) (m : M L A) :
  (forall l w, m l w = (fst (g l), snd (g l), w)) -> mblind m m.
Proof. intros H l w w' Hw. rewrite !H. auto. Qed.
Lemma blind_ret {L A} (a : A) : mblind (@ret L A a) (ret a).
Proof. intros l w w' H. cbn. auto. Qed.
Lemma blind_fail {L A} x : mblind (@fail L A x) (fail x).
Proof. intros l w w' H. cbn. auto. Qed.
Lemma blind_getl {L} : mblind (@getl L) getl.
Proof. intros l w w' H. cbn. auto. Qed.
Lemma blind_setl {L} (x : L) : mblind (setl x) (setl x).
Proof. intros l w w' H. cbn. auto. Qed.
Lemma blind_bind {L A B} (m m' : M L A) (f f' : A -> M L B) :
  mblind m m' -> (forall a, mblind (f a) (f' a)) -> mblind (bind m f) (bind m' f').
Proof.
  intros Hm Hf l w w' H. unfold bind. specialize (Hm l w w' H).
  destruct (m l w) as [[r l1] w1], (m' l w') as [[r' l1'] w1']. destruct Hm as [-> [-> Hw]].
  destruct r as [a|x|]; auto. apply Hf; assumption.
Qed.
Lemma blind_locally {L L' A} (l0 : L') (m m' : M L' A) :
  mblind m m' -> mblind (@locally L L' A l0 m) (locally l0 m').
Proof.
  intros Hm l w w' H. unfold locally. specialize (Hm l0 w w' H).
  destruct (m l0 w) as [[r l1] w1], (m' l0 w') as [[r' l1'] w1']. destruct Hm as [-> [-> Hw]].
  destruct r as [a|x|]; auto.
Qed.
Lemma blind_on {L A} (wrap : L -> mech) l0 (m m' : M L A) :
  mblind m m' -> mblind (on wrap l0 m) (on wrap l0 m').
Proof.
  intros Hm l w w' H. unfold on. specialize (Hm l0 w w' H).
  destruct (m l0 w) as [[r l1] w1], (m' l0 w') as [[r' l1'] w1']. destruct Hm as [-> [-> Hw]].
  auto.
Qed.
Lemma wsame_event w w' ev ev' : wsame w w' -> wsame (add_event ev w) (add_event ev' w').
Proof. intros H. exact H. Qed.
Lemma wsame_events w w' evs evs' : wsame w w' -> wsame (add_events evs w) (add_events evs' w').
Proof. intros H. exact H. Qed.
Lemma blind_write1 data w w' : wsame w w' ->
  match write1 data w, write1 data w' with (r, w1), (r', w1') => r' = r /\ wsame w1 w1' end.
Proof.
  intros (Ho & Hs & Hr & Hv). unfold write1. rewrite Hs.
  destruct (w_script w) as [|[| |] sc]; cbn; (split; [reflexivity|]); repeat split; cbn; congruence.
Qed.
Lemma blind_fuel n data w w' : wsame w w' ->
  match write_all_fuel n data w, write_all_fuel n data w' with (r, w1), (r', w1') => r' = r /\ wsame w1 w1' end.
Proof.
  revert data w w'. induction n as [|n IH]; intros data w w' H; destruct data as [|b data]; cbn [write_all_fuel]; auto.
  pose proof (blind_write1 (b :: data) w w' H) as H1.
  destruct (write1 (b :: data) w) as [r w1], (write1 (b :: data) w') as [r' w1'].
  destruct H1 as [-> H1]. destruct r as [x|[[|k]|]]; auto; apply IH; assumption.
Qed.
Lemma blind_write_all {L} data : mblind (@write_all L data) (write_all data).
Proof.
  intros l w w' H. unfold write_all. rewrite (proj1 (proj2 H)).
  pose proof (blind_fuel (S (length (w_script w))) data w w' H) as H1.
  destruct (write_all_fuel _ data w) as [r w1], (write_all_fuel _ data w') as [r' w1'].
  destruct H1; auto.
Qed.
Lemma blind_inner bufs w w' : wsame w w' ->
  match vec_inner bufs w, vec_inner bufs w' with (r, w1), (r', w1') => r' = r /\ wsame w1 w1' end.
Proof.
  intros H. destruct bufs as [|b bufs]; cbn [vec_inner]; auto.
  pose proof (blind_write1 (concat (b :: bufs)) w w' H) as H1.
  destruct (write1 (concat (b :: bufs)) w) as [r w1], (write1 (concat (b :: bufs)) w') as [r' w1'].
  destruct H1 as [-> H1]. destruct r as [x|[k|]]; auto.
  destruct (count_removed (b :: bufs) 0 k) as [rm acc]. destruct (skipn rm (b :: bufs)); auto.
Qed.
Lemma blind_loop n bufs k w w' : wsame w w' ->
  match vec_loop n bufs k w, vec_loop n bufs k w' with (r, w1), (r', w1') => r' = r /\ wsame w1 w1' end.
Proof.
  revert bufs k w w'. induction n as [|n IH]; intros bufs k w w' H; cbn [vec_loop]; auto.
  pose proof (blind_inner bufs w w' H) as H1.
  destruct (vec_inner bufs w) as [r w1], (vec_inner bufs w') as [r' w1']. destruct H1 as [-> H1].
  destruct r as [x|[[|len] [|b bs]]]; auto; apply IH; assumption.
Qed.
Lemma blind_write_all_vectored {L} bufs : mblind (@write_all_vectored L bufs) (write_all_vectored bufs).
Proof.
  intros l w w' H. unfold write_all_vectored. rewrite (proj1 (proj2 H)).
  destruct bufs as [|b bufs]; auto.
  pose proof (blind_loop (S (S (length (w_script w)))) (b :: bufs) 0 w w' H) as H1.
  destruct (vec_loop _ (b :: bufs) 0 w) as [r w1], (vec_loop _ (b :: bufs) 0 w') as [r' w1'].
  destruct H1; auto.
Qed.

Lemma blind_satisfy {L G} q (f f' : pval q -> M L G) p : (forall v, mblind (f v) (f' v)) ->
  forall st l w w', wsame w w' ->
  match run_satisfy q f p st l w, run_satisfy q f' p st l w' with
  | (r, st1, l1, w1), (r', st1', l1', w1') => r' = r /\ st1' = st1 /\ l1' = l1 /\ wsame w1 w1'
  end.
Proof.
  intros Hf.
  assert (Hc : forall st v l w w', wsame w w' ->
    match cr_satisfy q f st v l w, cr_satisfy q f' st v l w' with
    | (r, st1, l1, w1), (r', st1', l1', w1') => r' = r /\ st1' = st1 /\ l1' = l1 /\ wsame w1 w1'
    end).
  { intros st v l w w' H. unfold cr_satisfy. destruct st; auto. unfold bind, log.
    specialize (Hf v l _ _ (wsame_event _ _ (EvAnswer q v) (EvAnswer q v) H)).
    destruct (f v l _) as [[r l1] w1], (f' v l _) as [[r' l1'] w1']. destruct Hf as [-> [-> H1]].
    destruct r; auto. }
  induction p as [r|p v k IH|p v k IH|p k IH|p k IH]; intros st l w w' H; cbn [run_satisfy]; auto;
    try (apply IH; exact H).
  - destruct (castp v) as [v1|]; [|apply IH; exact H]. specialize (Hc st v1 l w w' H).
    destruct (cr_satisfy q f st v1 l w) as [[[r st1] l1] w1],
      (cr_satisfy q f' st v1 l w') as [[[r' st1'] l1'] w1'].
    destruct Hc as [-> [-> [-> H1]]]. destruct r as [u|x|]; auto; apply IH; assumption.
  - destruct (prop_eq_dec p q) as [->|N]; [|apply IH; assumption]. cbn zeta.
    destruct v as [x|v]; [apply IH; exact H|].
    destruct (castp v) as [v1|]; [|apply IH; exact H].
    specialize (Hc st v1 l _ _ (wsame_event _ _ (EvClosure q) (EvClosure q) H)).
    destruct (cr_satisfy q f st v1 l _) as [[[r st1] l1] w1],
      (cr_satisfy q f' st v1 l _) as [[[r' st1'] l1'] w1'].
    destruct Hc as [-> [-> [-> H1]]]. destruct r as [u|x|]; auto; apply IH; assumption.
Qed.
Lemma blind_run_action q p : forall slot tr tr',
  match run_action q p slot tr, run_action q p slot tr' with (r, s1, _), (r', s1', _) => r' = r /\ s1' = s1 end.
Proof.
  induction p as [r|p v k IH|p v k IH|p k IH|p k IH]; intros slot tr tr'; cbn [run_action]; auto; try apply IH.
  destruct (prop_eq_dec p q) as [E|N]; [|apply IH]. destruct slot as [v|]; apply IH.
Qed.

Section Blind.
Context (e e' : env) (H0 : empty_for_none e e').
Let env_eq : e' = set_cb e (e_cb e') := proj1 (proj2 (proj2 H0)).
Lemma blind_sd : e_sd e' = e_sd e.
Proof. rewrite env_eq. reflexivity. Qed.

Lemma blind_maybe {L G} q c (f f' : pval q -> M L G) : q <> PAuthzId -> (forall v, mblind (f v) (f' v)) ->
  mblind (maybe_need_with e q c f) (maybe_need_with e' q c f').
Proof.
  intros N Hf l w w' H. unfold maybe_need_with. cbn zeta. rewrite blind_sd.
  rewrite (proj2 (proj2 (proj2 H0)) (w_trace w) (w_trace w') (e_sd e) c (RSatisfy q)) by congruence.
  pose proof (blind_satisfy q f f' (e_cb e (w_trace w) (e_sd e) c (RSatisfy q)) Hf CrOpen l _ _
    (wsame_event _ _ (EvRequest q c) (EvRequest q c) H)) as H1.
  destruct (run_satisfy q f _ _ l _) as [[[r st1] l1] w1], (run_satisfy q f' _ _ l _) as [[[r' st1'] l1'] w1'].
  destruct H1 as [-> [-> [-> H1]]]. destruct r as [r|x|]; auto. destruct (mask_early r) as [[]|]; auto.
Qed.
Lemma blind_need {L G} q c (f f' : pval q -> M L G) : q <> PAuthzId -> (forall v, mblind (f v) (f' v)) ->
  mblind (need_with e q c f) (need_with e' q c f').
Proof.
  intros N Hf. unfold need_with. apply blind_bind; [apply blind_maybe; assumption|].
  intros [g|]; [apply blind_ret|apply blind_fail].
Qed.
Lemma blind_action {L} q c v : mblind (@action L e q c v) (action e' q c v).
Proof.
  intros l w w' (Ho & Hs & Hr & Hv). unfold action. cbn zeta. rewrite blind_sd.
  rewrite (proj2 (proj2 (proj2 H0)) (w_trace w) (w_trace w') (e_sd e) c (RAction q)) by congruence.
  pose proof (blind_run_action q (e_cb e (w_trace w) (e_sd e) c (RAction q)) (Some v)
    (w_trace w ++ [EvAction q v c]) (w_trace w' ++ [EvAction q v c])) as K.
  destruct (run_action q _ (Some v) (w_trace w ++ _)) as [[r s1] t1],
    (run_action q _ (Some v) (w_trace w' ++ _)) as [[r' s1'] t1']. destruct K as [-> ->].
  assert (Hw : wsame (mk_world (w_out w) (w_script w) t1 (w_rng w) (w_val w))
    (mk_world (w_out w') (w_script w') t1' (w_rng w') (w_val w'))) by (repeat split; cbn; auto).
  destruct (mask_early r); auto. destruct s1; auto.
Qed.

(** Writing the identity, where the empty one leaves no mark. *)
Lemma blind_identity {L} c (f : bytes -> M L unit) : (forall l w, f [] l w = (Ok tt, l, w)) ->
  forall B (g g' : M L B), mblind g g' ->
  mblind (bind (maybe_need_with e PAuthzId c f) (fun _ => g)) (bind (maybe_need_with e' PAuthzId c f) (fun _ => g')).
Proof.
  intros Hf B g g' Hg l w w' H. unfold bind.
  destruct (maybe_need_with_withholds e PAuthzId c f l w (proj1 H0)) as [cs [_ E]].
  destruct (maybe_need_with_provides e' PAuthzId [] c f l w' (proj1 (proj2 H0))) as [cs' [_ E']].
  rewrite E, E', Hf. cbn [polite_result]. apply Hg. exact H.
Qed.
End Blind.

Ltac blind H := repeat
  lazymatch goal with
  | |- mblind (ret _) _ => apply blind_ret
  | |- mblind (fail _) _ => apply blind_fail
  | |- mblind getl _ => apply blind_getl
  | |- mblind (setl _) _ => apply blind_setl
  | |- mblind (bind (maybe_need_with _ PAuthzId _ _) _) _ => apply (blind_identity _ _ H); [reflexivity|]
  | |- mblind (bind _ _) _ => apply blind_bind; [|intros ?]
  | |- mblind (locally _ _) _ => apply blind_locally
  | |- mblind (on _ _ _) _ => apply blind_on
  | |- mblind (need_with _ _ _ _) _ => apply (blind_need _ _ H); [discriminate|intros ?]
  | |- mblind (maybe_need_with _ _ _ _) _ => apply (blind_maybe _ _ H); [discriminate|intros ?]
  | |- mblind (action _ _ _ _) _ => apply (blind_action _ _ H)
  | |- mblind (write_all_vectored _) _ => apply blind_write_all_vectored
  | |- mblind (write_all _) _ => apply blind_write_all
  | |- mblind (match ?x with _ => _ end) (match ?x with _ => _ end) => destruct x
  | |- mblind (let '(_, _) := ?x in _) _ => destruct x
  end.

Section Steps.
Context (e : env) (cb' : callback_of) (H : empty_for_none e (set_cb e cb')) (input : option bytes).
Local Notation e' := (set_cb e cb').
Ltac plainly :=
  change (e_json_from e') with (e_json_from e); change (e_saslprep e') with (e_saslprep e);
  change (e_gss_step e') with (e_gss_step e); change (e_gss_complete e') with (e_gss_complete e);
  change (e_gss_name e') with (e_gss_name e); change (e_gss_cred e') with (e_gss_cred e);
  change (e_gss_flags e') with (e_gss_flags e); change (e_gss_wrap e') with (e_gss_wrap e);
  change (e_gss_unwrap e') with (e_gss_unwrap e).

Lemma blind_plain : mblind (plain_client_step e input) (plain_client_step e' input).
Proof. unfold plain_client_step. blind H. Qed.
Lemma blind_external : mblind (external_client_step e input) (external_client_step e' input).
Proof. unfold external_client_step. blind H. Qed.
Lemma blind_login : mblind (login_client_step e input) (login_client_step e' input).
Proof. unfold login_client_step. blind H. Qed.
Lemma blind_anonymous : mblind (anonymous_client_step e input) (anonymous_client_step e' input).
Proof. unfold anonymous_client_step. blind H. Qed.
Lemma blind_xoauth2 : mblind (xoauth2_client_step e input) (xoauth2_client_step e' input).
Proof. unfold xoauth2_client_step. plainly. blind H. Qed.
Lemma blind_gssapi : mblind (gss_client_step e input) (gss_client_step e' input).
Proof.
  unfold gss_client_step, gss_client_pending, gss_check_acceptable, gss_try, gss_err. plainly. blind H.
Qed.
End Steps.

Lemma blind_mech e e' input m : empty_for_none e e' -> no_mark m -> forall w w', wsame w w' ->
  match mech_step e input m w, mech_step e' input m w' with
  | (r, l1, w1), (r', l1', w1') => r' = r /\ l1' = l1 /\ wsame w1 w1' /\ no_mark l1
  end.
Proof.
  intros H Hm w w' Hw. assert (E : e' = set_cb e (e_cb e')) by apply H.
  revert H E. generalize (e_cb e'). intros cb' H ->.
  assert (K : forall L (wrap : L -> mech) l (a b : M L state), (forall x, no_mark (wrap x)) -> mblind a b ->
    match on wrap l a m w, on wrap l b m w' with
    | (r, l1, w1), (r', l1', w1') => r' = r /\ l1' = l1 /\ wsame w1 w1' /\ no_mark l1
    end).
  { intros L wrap l a b Hn Hab. unfold on. specialize (Hab l w w' Hw).
    destruct (a l w) as [[r l1] w1], (b l w') as [[r' l1'] w1']. destruct Hab as [-> [-> Hab]]. auto. }
  unfold mech_step, bind, getl. destruct m; try contradiction; (apply K; [intros; exact I|]).
  - apply blind_plain, H.
  - apply blind_login, H.
  - apply blind_external, H.
  - apply blind_anonymous, H.
  - apply blind_xoauth2, H.
  - apply blind_gssapi, H.
Qed.

Theorem dialogue_unmarked e e' l : empty_for_none e e' -> forall s s', no_mark (s_mech s) ->
  s_mech s' = s_mech s -> s_rng s' = s_rng s -> s_val s' = s_val s ->
  dialogue e' s' l = dialogue e s l.
Proof.
  intros H. induction l as [|[input script] l IH]; intros s s' Hn Em Er Ev; [reflexivity|].
  cbn [dialogue]. unfold step, run. rewrite Em.
  pose proof (blind_mech e e' input (s_mech s) H Hn (mk_world [] script (s_trace s) (s_rng s) (s_val s))
    (mk_world [] script (s_trace s') (s_rng s') (s_val s'))) as K.
  assert (Hw : wsame (mk_world [] script (s_trace s) (s_rng s) (s_val s))
    (mk_world [] script (s_trace s') (s_rng s') (s_val s'))) by (repeat split; assumption).
  specialize (K Hw). clear Hw.
  destruct (mech_step e input (s_mech s) _) as [[r m1] w1], (mech_step e' input (s_mech s) _) as [[r' m1'] w1'].
  destruct K as (-> & -> & (Ko & _ & Kr & Kv) & Kn). rewrite Ko. f_equal. apply IH; cbn; auto.
Qed.
