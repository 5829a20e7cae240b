(** Histories: recovery from missing input, behaviour after the end, validation contexts. *)
From Coq Require Import Lia.
From Verif Require Import Bytes Base64 Types World CallbackSpec WorldFacts MonadFacts Simple OAuth
  ScramParser Scram Gssapi Session Registry Frame Triple Spec_Simple Spec_Registry Spec_History
  Proof_Simple Proof_Registry Proof_History.
Open Scope m_scope.

(** * Missing input (C46) *)

(** Without an event [m] does not end with InputDataRequired. *)
Definition never {L A} (m : M L A) : Prop :=
  forall l w, match m l w with (r, l', w') => exists evs, w_trace w' = w_trace w ++ evs /\
    (r = Err EInputDataRequired -> evs <> []) end.
(** Without an event [m] ends with InputDataRequired only if it did nothing. *)
Definition undone {L A} (m : M L A) : Prop :=
  forall l w, match m l w with (r, l', w') => exists evs, w_trace w' = w_trace w ++ evs /\
    (r = Err EInputDataRequired -> evs = [] -> l' = l /\ w' = w) end.

Lemma never_undone {L A} (m : M L A) : never m -> undone m.
Proof.
  intros H l w. specialize (H l w). destruct (m l w) as [[r l1] w1].
  destruct H as [evs [E K]]. exists evs. split; [exact E|]. intros Hr He. destruct (K Hr He).
Qed.
Lemma never_ret {L A} (a : A) : never (@ret L A a).
Proof. intros l w. exists []. rewrite app_nil_r. split; [reflexivity|discriminate]. Qed.
Lemma never_fail {L A} x : x <> EInputDataRequired -> never (@fail L A x).
Proof. intros H l w. exists []. rewrite app_nil_r. split; [reflexivity|congruence]. Qed.
Lemma never_setl {L} (x : L) : never (setl x).
Proof. intros l w. exists []. rewrite app_nil_r. split; [reflexivity|discriminate]. Qed.
Lemma never_of_res {L A} (r : res serr A) : r <> Err EInputDataRequired -> never (@of_res L A r).
Proof. intros H l w. exists []. rewrite app_nil_r. split; [reflexivity|congruence]. Qed.
Lemma never_bind {L A B} (m : M L A) (f : A -> M L B) :
  never m -> (forall a, never (f a)) -> never (bind m f).
Proof.
  intros Hm Hf l w. unfold bind. specialize (Hm l w).
  destruct (m l w) as [[[a|x|] l1] w1]; destruct Hm as [evs [E K]].
  - specialize (Hf a l1 w1). destruct (f a l1 w1) as [[r l2] w2]. destruct Hf as [ev2 [E2 K2]].
    exists (evs ++ ev2). split; [rewrite E2, E, app_assoc; reflexivity|].
    intros Hr H. apply app_eq_nil in H. destruct H as [_ H]. exact (K2 Hr H).
  - exists evs. split; [exact E|]. intros H. apply K. congruence.
  - exists evs. split; [exact E|discriminate].
Qed.
Lemma undone_bind {L A B} (m : M L A) (f : A -> M L B) :
  undone m -> (forall a, never (f a)) -> undone (bind m f).
Proof.
  intros Hm Hf l w. unfold bind. specialize (Hm l w).
  destruct (m l w) as [[[a|x|] l1] w1]; destruct Hm as [evs [E K]].
  - specialize (Hf a l1 w1). destruct (f a l1 w1) as [[r l2] w2]. destruct Hf as [ev2 [E2 K2]].
    exists (evs ++ ev2). split; [rewrite E2, E, app_assoc; reflexivity|].
    intros Hr H. apply app_eq_nil in H. destruct H as [_ H]. destruct (K2 Hr H).
  - exists evs. split; [exact E|]. intros H. apply K. congruence.
  - exists evs. split; [exact E|discriminate].
Qed.
Lemma undone_getl {L A} (f : L -> M L A) : (forall l, undone (f l)) -> undone (bind getl f).
Proof. intros H l w. exact (H l l w). Qed.
Lemma undone_fail {L A} x : undone (@fail L A x).
Proof. intros l w. exists []. rewrite app_nil_r. auto. Qed.
Lemma never_write_all {L} data : never (@write_all L data).
Proof.
  intros l w. destruct (write_all_spec data l w) as [p [q [w' [_ [Hw [[-> _]|[x ->]]]]]]];
    exists []; rewrite app_nil_r; (split; [apply (wrote_trace _ _ _ Hw)|discriminate]).
Qed.
Lemma never_write_all_vectored {L} bufs : never (@write_all_vectored L bufs).
Proof.
  intros l w. destruct (write_all_vectored_spec bufs l w) as [p [q [w' [_ [Hw [[-> _]|[x ->]]]]]]];
    exists []; rewrite app_nil_r; (split; [apply (wrote_trace _ _ _ Hw)|discriminate]).
Qed.
(** Computations that always observe an event. *)
Lemma never_step {L A} (m : M L A) :
  (forall l w, match m l w with (_, _, w') => exists ev evs, w_trace w' = w_trace w ++ ev :: evs end) ->
  never m.
Proof.
  intros H l w. specialize (H l w). destruct (m l w) as [[r l1] w1].
  destruct H as [ev [evs E]]. exists (ev :: evs). split; [exact E|discriminate].
Qed.
Definition grows (w w' : world) : Prop := exists evs, w_trace w' = w_trace w ++ evs.
Lemma grows_frame : frame grows.
Proof.
  split; [intros w; exists []; rewrite app_nil_r; reflexivity|].
  intros a b c [x E] [y K]. exists (x ++ y). rewrite K, E, app_assoc. reflexivity.
Qed.
Lemma grows_admits ev : admits grows ev.
Proof. intros w. exists [ev]. reflexivity. Qed.
Lemma grows_asks q : asks grows q.
Proof. repeat split; intros; apply grows_admits. Qed.
Lemma grows_writes : writes grows.
Proof. intros p w w' H. exists []. rewrite app_nil_r. apply (wrote_trace _ _ _ H). Qed.

Lemma never_maybe_need_with {L G} e q c (f : pval q -> M L G) :
  (forall v, keeps grows (f v)) -> never (maybe_need_with e q c f).
Proof.
  intros Hf. apply never_step. intros l w. unfold maybe_need_with. rewrite add_event_events.
  pose proof (keeps_run_satisfy grows grows_frame q f (e_cb e (w_trace w) (e_sd e) c (RSatisfy q))
    CrOpen (grows_asks q) Hf l (add_events [EvRequest q c] w)) as H.
  destruct (run_satisfy _ _ _ _ _ _) as [[[r st] l1] w1]. destruct H as [evs E].
  assert (K : exists ev evs, w_trace w1 = w_trace w ++ ev :: evs).
  { exists (EvRequest q c), evs. rewrite E. cbn. rewrite <- app_assoc. reflexivity. }
  destruct r as [r|x|]; [destruct (mask_early r) as [x|]; [destruct x|]|..]; exact K.
Qed.
Lemma never_need_with {L G} e q c (f : pval q -> M L G) :
  (forall v, keeps grows (f v)) -> never (need_with e q c f).
Proof.
  intros Hf. unfold need_with. apply never_bind; [apply never_maybe_need_with; exact Hf|].
  intros [g|]; [apply never_ret|apply never_fail; discriminate].
Qed.
Lemma never_validate {L} e c : never (@validate L e c).
Proof.
  apply never_step. intros l w. unfold validate. destruct (run_validate _ _ _) as [[x|] slot];
    exists (EvValidate c), []; reflexivity.
Qed.
Lemma never_action {L} e q c v : never (@action L e q c v).
Proof.
  apply never_step. intros l w. unfold action.
  pose proof (run_action_taken q (e_cb e (w_trace w) (e_sd e) c (RAction q)) (Some v)
    (w_trace w ++ [EvAction q v c])) as [evs [_ Ev]].
  destruct (run_action _ _ _ _) as [[r slot] tr]. cbn in Ev.
  assert (K : exists ev evs, tr = w_trace w ++ ev :: evs).
  { exists (EvAction q v c), evs. rewrite Ev, <- app_assoc. reflexivity. }
  destruct (mask_early r); [exact K|]. destruct slot; exact K.
Qed.

Ltac grows_go := pose proof grows_frame as F;
  repeat (first [ keep_step F | apply grows_asks | apply grows_writes | intros; apply grows_admits ]).
Ltac never_go :=
  repeat lazymatch goal with
  | |- undone (bind getl _) => apply undone_getl; intros ?
  | |- undone (bind _ _) => apply undone_bind; [|intros ?]
  | |- undone (fail _) => apply undone_fail
  | |- undone (match ?x with _ => _ end) => destruct x
  | |- undone _ => apply never_undone
  | |- never (bind _ _) => apply never_bind; [|intros ?]
  | |- never (ret _) => apply never_ret
  | |- never (fail _) => apply never_fail; discriminate
  | |- never (setl _) => apply never_setl
  | |- never (of_res (rmap_err _ ?x)) => apply never_of_res; destruct x; discriminate
  | |- never (write_all _) => apply never_write_all
  | |- never (write_all_vectored _) => apply never_write_all_vectored
  | |- never (validate _ _) => apply never_validate
  | |- never (action _ _ _ _) => apply never_action
  | |- never (need_with _ _ _ _) => apply never_need_with; intros ?; solve [grows_go]
  | |- never (maybe_need_with _ _ _ _) => apply never_maybe_need_with; intros ?; solve [grows_go]
  | |- never (match ?x with _ => _ end) => destruct x
  end.

Lemma on_undone {L} (wrap : L -> mech) l0 (m : M L state) e input s script out s' :
  undone m -> s_mech s = wrap l0 ->
  (forall w, mech_step e input (s_mech s) w = on wrap l0 m (s_mech s) w) ->
  step e s input script = (Err EInputDataRequired, out, s') -> new_events s s' [] ->
  out = [] /\ s' = s.
Proof.
  intros Hu Em Hs H Hn. unfold step, run in H. rewrite Hs in H. unfold on in H.
  specialize (Hu l0 (mk_world [] script (s_trace s) (s_rng s) (s_val s))).
  destruct (m l0 _) as [[r1 l1] w1]. injection H as -> <- <-.
  destruct Hu as [evs [E K]]. unfold new_events in Hn. cbn in Hn, E.
  rewrite E in Hn. apply app_inv_head in Hn. destruct (K eq_refl Hn) as [-> ->]. cbn.
  split; [reflexivity|]. rewrite <- Em. destruct s; reflexivity.
Qed.

Theorem input_required_recovers e s input script out s' :
  ~ is_gssapi (s_mech s) -> ~ is_scram (s_mech s) ->
  step e s input script = (Err EInputDataRequired, out, s') -> new_events s s' [] ->
  out = [] /\ s' = s.
Proof.
  intros Hg Hsc H Hn. destruct (s_mech s) as [| |l|l| | | | |l|l|l|l|a l|a l|l|l] eqn:Em;
    try (exfalso; apply Hg; exact I); try (exfalso; apply Hsc; exact I).
  - eapply (on_undone (fun _ => XPlainC) tt (plain_client_step e input));
      [unfold plain_client_step; never_go|exact Em|rewrite Em; reflexivity|exact H|exact Hn].
  - eapply (on_undone (fun _ => XPlainS) tt (plain_server_step e input));
      [unfold plain_server_step; never_go|exact Em|rewrite Em; reflexivity|exact H|exact Hn].
  - eapply (on_undone XLoginC l (login_client_step e input));
      [unfold login_client_step; never_go|exact Em|rewrite Em; reflexivity|exact H|exact Hn].
  - eapply (on_undone XLoginS l (login_server_step e input));
      [unfold login_server_step; never_go|exact Em|rewrite Em; reflexivity|exact H|exact Hn].
  - eapply (on_undone (fun _ => XExternalC) tt (external_client_step e input));
      [unfold external_client_step; never_go|exact Em|rewrite Em; reflexivity|exact H|exact Hn].
  - eapply (on_undone (fun _ => XExternalS) tt (external_server_step e input));
      [unfold external_server_step; never_go|exact Em|rewrite Em; reflexivity|exact H|exact Hn].
  - eapply (on_undone (fun _ => XAnonymousC) tt (anonymous_client_step e input));
      [unfold anonymous_client_step; never_go|exact Em|rewrite Em; reflexivity|exact H|exact Hn].
  - eapply (on_undone (fun _ => XAnonymousS) tt (anonymous_server_step e input));
      [unfold anonymous_server_step; never_go|exact Em|rewrite Em; reflexivity|exact H|exact Hn].
  - eapply (on_undone XXOAuth2C l (xoauth2_client_step e input));
      [unfold xoauth2_client_step; never_go|exact Em|rewrite Em; reflexivity|exact H|exact Hn].
  - eapply (on_undone XXOAuth2S l (xoauth2_server_step e input));
      [unfold xoauth2_server_step; never_go|exact Em|rewrite Em; reflexivity|exact H|exact Hn].
  - eapply (on_undone XOAuthBearerC l (oauthbearer_client_step e input));
      [unfold oauthbearer_client_step; never_go|exact Em|rewrite Em; reflexivity|exact H|exact Hn].
  - eapply (on_undone XOAuthBearerS l (oauthbearer_server_step e input));
      [unfold oauthbearer_server_step; never_go|exact Em|rewrite Em; reflexivity|exact H|exact Hn].
Qed.

(** * After the end (C50) *)

Definition stopped (m : mech) : Prop :=
  match m with
  | XLoginC LcDone | XLoginS LsDone | XXOAuth2C OcDone | XOAuthBearerC OcDone
  | XGssapiC (GcCompleted _) | XGssapiC GcErrored | XGssapiS (GsDone _) | XGssapiS GsErrored => True
  | _ => False
  end.

Lemma stopped_step e s input script : stopped (s_mech s) ->
  exists s', step e s input script = (Err EMechanismDone, [], s') /\ stopped (s_mech s').
Proof.
  destruct s as [m tr n v]. cbn [s_mech]. intros H.
  destruct m as [| |[]|[]| | | | |[]|[]|[]|[]|a l|a l|[]|[]]; destruct H;
    (eexists; split; [reflexivity|exact I]).
Qed.
Lemma stopped_history e s n s' : stopped (s_mech s) -> history e s n s' -> stopped (s_mech s').
Proof.
  intros Hs H. induction H as [|n s1 input script out s2 H IH E|n s1 input script r out s2 H IH E Hr];
    [exact Hs| |]; destruct (stopped_step e s1 input script IH) as [x [E2 K]]; congruence.
Qed.

(** Where Finished leaves the local state. *)
Definition ends_in {L} (done : L -> Prop) (l0 : L) (m : M L state) : Prop :=
  forall n0, triple (at_ l0 n0) (fun a l _ => match a with Finished _ => done l | _ => True end)
                    (fun _ _ => True) m.
Ltac fwe :=
  lazymatch goal with
  | |- triple _ _ _ (ret _) => apply fwd_ret; cbn; try exact I; try reflexivity
  | |- triple _ _ _ (fail _) => apply fwd_fail; exact I
  | |- triple _ _ _ panic => apply fwd_panic; exact I
  | |- triple _ _ _ gss_err => apply fwd_fail; exact I
  | |- triple _ _ _ (bind getl _) => apply fwd_getl
  | |- triple _ _ _ (bind (setl _) _) => apply fwd_setl
  | |- triple _ _ _ (bind (validate _ _) _) => apply fwd_validate; [exact I|]
  | |- triple _ _ _ (match ?x with _ => _ end) => destruct x
  | |- triple _ _ _ (bind _ _) =>
      apply fwd_still; [solve [repeat still_step]|exact I|intros ?]
  | |- triple _ _ _ (gss_client_pending _ _ _) => unfold gss_client_pending, gss_check_acceptable
  | |- triple _ _ _ (gss_server_pending _ _ _) => unfold gss_server_pending
  | |- triple _ _ _ (gss_server_installed _ _ _) => unfold gss_server_installed
  end; cbv zeta.
Lemma ends_login_c e i l : ends_in (fun l => stopped (XLoginC l)) l (login_client_step e i).
Proof. intros n0. unfold login_client_step. fwe. destruct l; repeat fwe. Qed.
Lemma ends_login_s e i l : ends_in (fun l => stopped (XLoginS l)) l (login_server_step e i).
Proof. intros n0. unfold login_server_step. fwe. destruct l; repeat fwe. Qed.
Lemma ends_xoauth2_c e i l : ends_in (fun l => stopped (XXOAuth2C l)) l (xoauth2_client_step e i).
Proof. intros n0. unfold xoauth2_client_step. fwe. destruct l; repeat fwe. Qed.
Lemma ends_oauthbearer_c e i l :
  ends_in (fun l => stopped (XOAuthBearerC l)) l (oauthbearer_client_step e i).
Proof. intros n0. unfold oauthbearer_client_step. fwe. destruct l; repeat fwe. Qed.
Lemma ends_gss_c e i l : ends_in (fun l => stopped (XGssapiC l)) l (gss_client_step e i).
Proof. intros n0. unfold gss_client_step. fwe. fwe. destruct l; repeat fwe. Qed.
Lemma ends_gss_s e i l : ends_in (fun l => stopped (XGssapiS l)) l (gss_server_step e i).
Proof. intros n0. unfold gss_server_step. fwe. fwe. destruct l; repeat fwe. Qed.
Lemma ends_scram_s e a i l : ends_in (fun l => l = Some SsFinished) l (scram_server_step e a i).
Proof.
  intros n0. unfold scram_server_step. fwe. fwe. destruct l as [[plus|s|]|].
  - destruct i as [i|]; [|repeat fwe].
    apply fwd_still; [apply still_handle_client_first|exact I|]. intros [d l]. repeat fwe.
  - destruct i as [i|]; [|repeat fwe].
    eapply t_bind with (R := fun _ _ _ => True).
    + intros l w _. destruct (handle_client_final e a s i l w) as [[[u|x|] l2] w2]; exact I.
    + intros []. intros l w _. reflexivity.
  - repeat fwe.
  - repeat fwe.
Qed.
Lemma ends_scram_c e a i l : ends_in (fun l => l = None) l (scram_client_step e a i).
Proof.
  intros n0. unfold scram_client_step. fwe. fwe. destruct l as [[plus|s|s]|].
  - apply fwd_still; [apply still_client_first|exact I|]. intros [s l]. repeat fwe.
  - destruct i as [i|]; [|repeat fwe].
    apply fwd_still; [apply still_server_first|exact I|]. intros s'. repeat fwe.
  - destruct i as [i|]; [|repeat fwe].
    apply fwd_still; [apply still_server_final|exact I|]. intros s'. repeat fwe.
  - repeat fwe.
Qed.

Lemma on_ends {L} (wrap : L -> mech) (done : L -> Prop) l0 (m : M L state) s script b out s' e input :
  ends_in done l0 m ->
  (forall w, mech_step e input (s_mech s) w = on wrap l0 m (s_mech s) w) ->
  step e s input script = (Ok (Finished b), out, s') ->
  exists l, s_mech s' = wrap l /\ done l.
Proof.
  intros Hf Hs H. unfold step, run in H. rewrite Hs in H. unfold on in H.
  specialize (Hf (svals s) l0 (mk_world [] script (s_trace s) (s_rng s) (s_val s))
                 (conj eq_refl eq_refl)).
  destruct (m l0 _) as [[r1 l1] w1]. injection H as -> <- <-.
  exists l1. split; [reflexivity|exact Hf].
Qed.

Theorem finished_refuses e s input script b out s1 n s2 input2 script2 :
  remembers_done (s_mech s) -> step e s input script = (Ok (Finished b), out, s1) ->
  history e s1 n s2 -> exists s3, step e s2 input2 script2 = (Err EMechanismDone, [], s3).
Proof.
  intros Hr H Hh.
  assert (K : stopped (s_mech s1)).
  { destruct (s_mech s) as [| |l|l| | | | |l|l|l|l|a l|a l|l|l] eqn:Em; try destruct Hr.
    - destruct (on_ends XLoginC _ l _ s script b out s1 e input (ends_login_c e input l))
        as [l' [-> K]]; [rewrite Em; reflexivity|exact H|exact K].
    - destruct (on_ends XLoginS _ l _ s script b out s1 e input (ends_login_s e input l))
        as [l' [-> K]]; [rewrite Em; reflexivity|exact H|exact K].
    - destruct (on_ends XXOAuth2C _ l _ s script b out s1 e input (ends_xoauth2_c e input l))
        as [l' [-> K]]; [rewrite Em; reflexivity|exact H|exact K].
    - destruct (on_ends XOAuthBearerC _ l _ s script b out s1 e input (ends_oauthbearer_c e input l))
        as [l' [-> K]]; [rewrite Em; reflexivity|exact H|exact K].
    - destruct (on_ends XGssapiC _ l _ s script b out s1 e input (ends_gss_c e input l))
        as [l' [-> K]]; [rewrite Em; reflexivity|exact H|exact K].
    - destruct (on_ends XGssapiS _ l _ s script b out s1 e input (ends_gss_s e input l))
        as [l' [-> K]]; [rewrite Em; reflexivity|exact H|exact K]. }
  destruct (stopped_step e s2 input2 script2 (stopped_history _ _ _ _ K Hh)) as [s3 [E _]]. eauto.
Qed.

Theorem scram_server_refuses_once e s a st input script b out s1 input2 script2 :
  s_mech s = XScramS a st -> step e s input script = (Ok (Finished b), out, s1) ->
  exists s2, step e s1 input2 script2 = (Err EMechanismDone, [], s2) /\
    forall input3 script3, exists s3, step e s2 input3 script3 = (Panic, [], s3).
Proof.
  intros Em H.
  destruct (on_ends (XScramS a) _ st _ s script b out s1 e input (ends_scram_s e a input st))
    as [l' [E ->]]; [rewrite Em; reflexivity|exact H|].
  destruct s1 as [m tr n v]. cbn [s_mech] in E. subst m.
  eexists. split; [reflexivity|]. intros i3 sc3. eexists. reflexivity.
Qed.

Theorem scram_client_panics_after e s a st input script b out s1 input2 script2 :
  s_mech s = XScramC a st -> step e s input script = (Ok (Finished b), out, s1) ->
  exists s2, step e s1 input2 script2 = (Panic, [], s2).
Proof.
  intros Em H.
  destruct (on_ends (XScramC a) _ st _ s script b out s1 e input (ends_scram_c e a input st))
    as [l' [E ->]]; [rewrite Em; reflexivity|exact H|].
  destruct s1 as [m tr n v]. cbn [s_mech] in E. subst m. eexists. reflexivity.
Qed.

(** * Validation contexts (C48) *)

Definition fits (good : ctx -> Prop) (w w' : world) : Prop :=
  exists evs, w_trace w' = w_trace w ++ evs /\ forall c, validation_context evs c -> good c.
Lemma fits_frame good : frame (fits good).
Proof.
  split.
  - intros w. exists []. rewrite app_nil_r. split; [reflexivity|]. intros c [[]|[[]|[]]].
  - intros a b c [x [E Hx]] [y [K Hy]]. exists (x ++ y).
    split; [rewrite K, E, app_assoc; reflexivity|].
    intros d. unfold validation_context. rewrite !in_app_iff. intros H.
    assert (D : validation_context x d \/ validation_context y d)
      by (unfold validation_context; tauto).
    destruct D; auto.
Qed.
Lemma fits_admits (good : ctx -> Prop) ev : (forall c, validation_context [ev] c -> good c) -> admits (fits good) ev.
Proof. intros H w. exists [ev]. split; [reflexivity|exact H]. Qed.
Lemma fits_asks good q : q <> PXOAuth2Validate -> q <> POAuthBearerValidate -> asks (fits good) q.
Proof.
  intros H1 H2. repeat split; intros; apply fits_admits; intros d Hd;
    unfold validation_context in Hd; cbn in Hd; exfalso; intuition congruence.
Qed.
Lemma fits_writes good : writes (fits good).
Proof.
  intros p w w' H. exists []. rewrite app_nil_r. split; [apply (wrote_trace _ _ _ H)|].
  intros c [[]|[[]|[]]].
Qed.
Lemma fits_draws good : draws_ok (fits good).
Proof.
  intros w. exists []. cbn. rewrite app_nil_r. split; [reflexivity|]. intros c [[]|[[]|[]]].
Qed.
Lemma fits_chan good n : admits (fits good) (EvChan n).
Proof. apply fits_admits. intros c [[H|[]]|[[H|[]]|[H|[]]]]; discriminate. Qed.
Lemma fits_validate {L} (good : ctx -> Prop) e c : good c -> keeps (fits good) (@validate L e c).
Proof.
  intros H l w. unfold validate. destruct (run_validate _ _ _) as [[x|] slot];
    exists [EvValidate c]; (split; [reflexivity|]);
    intros d [[E|[]]|[[E|[]]|[E|[]]]]; congruence.
Qed.
Lemma fits_need_with {L G} (good : ctx -> Prop) e q c (f : pval q -> M L G) :
  good c -> (forall v, keeps (fits good) (f v)) -> keeps (fits good) (need_with e q c f).
Proof.
  intros Hc Hf. pose proof (fits_frame good) as F. unfold need_with.
  apply (keeps_bind _ F); [|intros [g|]; [apply (keeps_ret _ F)|apply (keeps_fail _ F)]].
  intros l w. unfold maybe_need_with. rewrite add_event_events.
  (* replay the request in the frame of closures and answers *)
  assert (K : forall p st l w, match run_satisfy q f p st l w with (_, _, _, w') =>
                fits good w w' end).
  { assert (Hcl : admits (fits good) (EvClosure q)).
    { apply fits_admits. intros d [[E|[]]|[[E|[]]|[E|[]]]]; discriminate. }
    assert (Han : forall v, admits (fits good) (EvAnswer q v)).
    { intros v. apply fits_admits. intros d [[E|[]]|[[E|[]]|[E|[]]]]; discriminate. }
    intros p st l0 w0. apply (keeps_run_satisfy_at _ F); assumption. }
  specialize (K (e_cb e (w_trace w) (e_sd e) c (RSatisfy q)) CrOpen l (add_events [EvRequest q c] w)).
  destruct (run_satisfy _ _ _ _ _ _) as [[[r st] l1] w1].
  assert (R : fits good w w1).
  { eapply fr_trans; [exact F| |exact K]. apply fits_admits.
    intros d [[E|[]]|[[E|[]]|[E|[]]]]; congruence. }
  destruct r as [r|x|]; [destruct (mask_early r) as [x|]; [destruct x|]|..]; exact R.
Qed.

(** [c] answers exactly the properties in [ps], [PAuthzId] possibly excepted. *)
Definition answers_set (ps : list prop) (omit : Prop) (c : ctx) : Prop :=
  forall q, ~ omit \/ q <> PAuthzId -> (get_ref c q <> None <-> In q ps).

Ltac set_go := intros q Hq; destruct q; cbn in Hq;
  solve [ exfalso; tauto | vm_compute; split; intros Hx;
    [ first [ left; reflexivity | right; left; reflexivity | right; right; left; reflexivity
            | exfalso; apply Hx; reflexivity ]
    | first [ discriminate
            | exfalso; repeat (destruct Hx as [Hx|Hx]; [discriminate|]); destruct Hx ] ] ].
Lemma on_fits {L} (wrap : L -> mech) (good : ctx -> Prop) l0 (m : M L state) s script r out s' e input evs :
  keeps (fits good) m ->
  (forall w, mech_step e input (s_mech s) w = on wrap l0 m (s_mech s) w) ->
  step e s input script = (r, out, s') -> new_events s s' evs ->
  forall c, validation_context evs c -> good c.
Proof.
  intros Hf Hs H Hn. unfold step, run in H. rewrite Hs in H. unfold on in H.
  specialize (Hf l0 (mk_world [] script (s_trace s) (s_rng s) (s_val s))).
  destruct (m l0 _) as [[r1 l1] w1]. injection H as <- <- <-. destruct Hf as [ev2 [E K]].
  unfold new_events in Hn. cbn in Hn, E. rewrite E in Hn. apply app_inv_head in Hn.
  subst ev2. exact K.
Qed.

Ltac fit F :=
  unfold_steps;
  repeat (first
    [ lazymatch goal with
      | |- keeps _ (need_with _ PXOAuth2Validate _ _) => apply fits_need_with; [|intros ?]
      | |- keeps _ (need_with _ POAuthBearerValidate _ _) => apply fits_need_with; [|intros ?]
      | |- keeps _ (validate _ _) => apply fits_validate
      end
    | keep_step F | apply fits_writes | apply fits_draws | apply fits_chan
    | intros; apply fits_chan | apply fits_asks; discriminate ]).

Theorem fixed_context e s input script r out s' evs ps c :
  answered_by (s_mech s) ps -> step e s input script = (r, out, s') -> new_events s s' evs ->
  validation_context evs c -> forall q, (omits_authzid (s_mech s) -> q <> PAuthzId) ->
  (get_ref c q <> None <-> In q ps).
Proof.
  intros Ha H Hn Hc.
  enough (K : answers_set ps (omits_authzid (s_mech s)) c).
  { intros q Hq. apply K. remember (s_mech s) as m. destruct m; cbn in *; tauto. }
  pose proof (fits_frame (answers_set ps (omits_authzid (s_mech s)))) as F.
  inversion Ha as [E1 E2|l E1 E2|E1 E2|E1 E2|l E1 E2|l E1 E2|a l E1 E2]; rewrite <- E1 in *;
    subst ps; cbn [omits_authzid] in *.
  - eapply (on_fits (fun _ => XPlainS) _ tt (plain_server_step e input));
      [|rewrite <- E1; reflexivity|exact H|exact Hn|exact Hc]. fit F; set_go.
  - eapply (on_fits XLoginS _ l (login_server_step e input));
      [|rewrite <- E1; reflexivity|exact H|exact Hn|exact Hc]. fit F; set_go.
  - eapply (on_fits (fun _ => XExternalS) _ tt (external_server_step e input));
      [|rewrite <- E1; reflexivity|exact H|exact Hn|exact Hc]. fit F; set_go.
  - eapply (on_fits (fun _ => XAnonymousS) _ tt (anonymous_server_step e input));
      [|rewrite <- E1; reflexivity|exact H|exact Hn|exact Hc]. fit F; set_go.
  - eapply (on_fits XXOAuth2S _ l (xoauth2_server_step e input));
      [|rewrite <- E1; reflexivity|exact H|exact Hn|exact Hc]. fit F; set_go.
  - eapply (on_fits XOAuthBearerS _ l (oauthbearer_server_step e input));
      [|rewrite <- E1; reflexivity|exact H|exact Hn|exact Hc].
    fit F; unfold oauthbearer_provider; destruct (om_authzid _); set_go.
  - eapply (on_fits (XScramS a) _ l (scram_server_step e a input));
      [|rewrite <- E1; reflexivity|exact H|exact Hn|exact Hc].
    fit F; unfold scram_server_provider; destruct (fi_authzid _); set_go.
Qed.
