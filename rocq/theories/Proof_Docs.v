(** Mechanisms request, announce and show only what is documented (C67). *)
From Coq Require Import Lia.
From Verif Require Import Bytes Types World CallbackSpec WorldFacts MonadFacts Simple OAuth
  ScramParser Scram Gssapi Session Registry Frame Spec_Simple Spec_History Spec_Docs.
Open Scope m_scope.

(** All events satisfy [good]. *)
Definition efits (good : event -> Prop) (w w' : world) : Prop :=
  exists evs, w_trace w' = w_trace w ++ evs /\ Forall good evs.
Lemma efits_frame good : frame (efits good).
Proof.
  split.
  - intros w. exists []. rewrite app_nil_r. split; [reflexivity|constructor].
  - intros a b c [x [E Hx]] [y [K Hy]]. exists (x ++ y).
    split; [rewrite K, E, app_assoc; reflexivity|]. apply Forall_app. auto.
Qed.
Lemma efits_admits (good : event -> Prop) ev : good ev -> admits (efits good) ev.
Proof. intros H w. exists [ev]. split; [reflexivity|]. constructor; [exact H|constructor]. Qed.
Lemma efits_writes good : writes (efits good).
Proof.
  intros p w w' H. exists []. rewrite app_nil_r. split; [apply (wrote_trace _ _ _ H)|constructor].
Qed.
Lemma efits_draws good : draws_ok (efits good).
Proof. intros w. exists []. cbn. rewrite app_nil_r. split; [reflexivity|constructor]. Qed.
Lemma efits_validate {L} (good : event -> Prop) e c :
  good (EvValidate c) -> keeps (efits good) (@validate L e c).
Proof.
  intros H l w. unfold validate. destruct (run_validate _ _ _) as [[x|] slot];
    exists [EvValidate c]; (split; [reflexivity|]); (constructor; [exact H|constructor]).
Qed.
Definition efits_asks (good : event -> Prop) q c : Prop :=
  good (EvRequest q c) /\ good (EvClosure q) /\ (forall v, good (EvAnswer q v)).
Lemma efits_maybe_need_with {L G} good e q c (f : pval q -> M L G) :
  efits_asks good q c -> (forall v, keeps (efits good) (f v)) ->
  keeps (efits good) (maybe_need_with e q c f).
Proof.
  intros [Hr [Hc Ha]] Hf. pose proof (efits_frame good) as F. intros l w.
  unfold maybe_need_with. rewrite add_event_events.
  assert (K : forall p st l w,
    match run_satisfy q f p st l w with (_, _, _, w') => efits good w w' end).
  { intros p st l0 w0. apply (keeps_run_satisfy_at _ F);
      [apply efits_admits; exact Hc|intros v; apply efits_admits; apply Ha|exact Hf]. }
  specialize (K (e_cb e (w_trace w) (e_sd e) c (RSatisfy q)) CrOpen l
    (add_events [EvRequest q c] w)).
  destruct (run_satisfy _ _ _ _ _ _) as [[[r st] l1] w1].
  assert (R : efits good w w1).
  { eapply fr_trans; [exact F| |exact K]. apply efits_admits. exact Hr. }
  destruct r as [r|x|]; [destruct (mask_early r) as [x|]; [destruct x|]|..]; exact R.
Qed.
Lemma efits_need_with {L G} good e q c (f : pval q -> M L G) :
  efits_asks good q c -> (forall v, keeps (efits good) (f v)) ->
  keeps (efits good) (need_with e q c f).
Proof.
  intros Hc Hf. pose proof (efits_frame good) as F. unfold need_with. apply (keeps_bind _ F);
    [apply efits_maybe_need_with; assumption|].
  intros [g|]; [apply (keeps_ret _ F)|apply (keeps_fail _ F)].
Qed.
Lemma efits_maybe_need_cb_data {L G} (good : event -> Prop) e name c (f : bytes -> M L G) :
  good (EvChan name) ->
  efits_asks good PChannelBindings (and_provider (this_provider PChannelBindingName name) c) ->
  (forall v, keeps (efits good) (f v)) -> keeps (efits good) (maybe_need_cb_data e name c f).
Proof.
  intros Hn Hc Hf. pose proof (efits_frame good) as F. unfold maybe_need_cb_data.
  apply (keeps_bind _ F); [apply keeps_log; apply efits_admits; exact Hn|].
  intros _. destruct (e_chan e name).
  - apply (keeps_bind _ F); [apply Hf|]. intros; apply (keeps_ret _ F).
  - apply efits_maybe_need_with; assumption.
Qed.
Lemma efits_need_cb_data {L G} (good : event -> Prop) e name c (f : bytes -> M L G) :
  good (EvChan name) ->
  efits_asks good PChannelBindings (and_provider (this_provider PChannelBindingName name) c) ->
  (forall v, keeps (efits good) (f v)) -> keeps (efits good) (need_cb_data e name c f).
Proof.
  intros Hn Hc Hf. pose proof (efits_frame good) as F. unfold need_cb_data.
  apply (keeps_bind _ F); [apply efits_maybe_need_cb_data; assumption|].
  intros [g|]; [apply (keeps_ret _ F)|apply (keeps_fail _ F)].
Qed.

(** Contexts. *)
Lemma get_ref_other p (v : pval p) c q : p <> q -> get_ref (mk_entry p v :: c) q = get_ref c q.
Proof.
  intros H. cbn. unfold castp. destruct (prop_eq_dec p q) as [E|_]; [contradiction|reflexivity].
Qed.
Lemma get_ref_same p (v : pval p) c : get_ref (mk_entry p v :: c) p <> None.
Proof.
  cbn. unfold castp. destruct (prop_eq_dec p p) as [E|N]; [discriminate|contradiction N; reflexivity].
Qed.
Lemma get_ref_keys c q : get_ref c q <> None <-> In q (map (@projT1 prop pval) c).
Proof.
  induction c as [|[p v] c IH]; [split; [intros H; exact (H eq_refl)|intros []]|].
  change (get_ref (mk_entry p v :: c) q <> None <-> p = q \/ In q (map (@projT1 prop pval) c)).
  destruct (prop_eq_dec p q) as [<-|N].
  - split; [left; reflexivity|intros _; apply get_ref_same].
  - rewrite (get_ref_other p v c q N), IH. split; [right; assumption|intros [E|E]; [contradiction|exact E]].
Qed.
Lemma answering_keys c l : (forall q, In q (map (@projT1 prop pval) c) -> In q l) ->
  (forall q, In q l -> q <> PAuthzId -> In q (map (@projT1 prop pval) c)) -> answering c l.
Proof.
  intros H1 H2. split; intros q; [intros H; apply H1, get_ref_keys, H|].
  intros Hi Hn. apply get_ref_keys. auto.
Qed.

Ltac keyed := apply answering_keys; cbn; intros; intuition (subst; intuition congruence).
Ltac doc_asks := split; [eexists; split; [econstructor; cbn; tauto|]|
  split; [|intros ?]; eexists; econstructor; cbn; tauto].
Ltac doc_step F :=
  lazymatch goal with
  | |- keeps _ (need_with _ _ _ _) => apply efits_need_with; [doc_asks|intros ?]
  | |- keeps _ (maybe_need_with _ _ _ _) => apply efits_maybe_need_with; [doc_asks|intros ?]
  | |- keeps _ (need_cb_data _ _ _ _) => apply efits_need_cb_data; [exact I|doc_asks|intros ?]
  | |- keeps _ (maybe_need_cb_data _ _ _ _) =>
      apply efits_maybe_need_cb_data; [exact I|doc_asks|intros ?]
  | |- keeps _ (action _ _ _ _) => apply (keeps_action _ F); apply efits_admits;
      [eexists; split; [econstructor|]|eexists; econstructor]
  | |- keeps _ (validate _ _) => apply efits_validate; eexists; split; [econstructor|]
  | |- keeps _ _ => keep_step F
  | |- writes _ => apply efits_writes
  | |- draws_ok _ => apply efits_draws
  end.

Lemma keeps_at {L A} W (m : M L A) : keeps W m ->
  forall l w, match m l w with (_, _, w') => W w w' end.
Proof. exact (fun H => H). Qed.

Lemma step_documented e input m w :
  match mech_step e input m w with (_, _, w') => efits (documented m) w w' end.
Proof.
  pose proof (efits_frame (documented m)) as F.
  unfold mech_step. unfold bind at 1, getl.
  destruct m; apply keeps_at; unfold_steps; repeat doc_step F.
  all: try (unfold plain_provider, login_provider, xoauth2_provider, oauthbearer_provider,
    scram_client_provider, scram_server_provider, and_provider, this_provider, empty_provider;
    keyed).
  all: unfold oauthbearer_provider, scram_server_provider, and_provider, this_provider;
    match goal with |- context [match ?z with _ => _ end] => destruct z end; keyed.
Qed.

Theorem only_documented e s input script r out s' evs :
  step e s input script = (r, out, s') -> new_events s s' evs -> Forall (documented (s_mech s)) evs.
Proof.
  intros H Hn. unfold step, run in H.
  pose proof (step_documented e input (s_mech s)
    (mk_world [] script (s_trace s) (s_rng s) (s_val s))) as K.
  destruct (mech_step e input (s_mech s) _) as [[r1 m1] w1].
  injection H as <- <- <-. destruct K as [ev2 [E Hf]].
  unfold new_events in Hn. cbn in Hn, E. rewrite E in Hn. apply app_inv_head in Hn. subst. exact Hf.
Qed.

(** * Order of requests *)

(** No requests and no announcements. *)
Definition quiet (w w' : world) : Prop :=
  exists evs, w_trace w' = w_trace w ++ evs /\ asked evs = [].
Lemma quiet_frame : frame quiet.
Proof.
  split.
  - intros w. exists []. rewrite app_nil_r. auto.
  - intros a b c [x [E Hx]] [y [K Hy]]. exists (x ++ y).
    split; [rewrite K, E, app_assoc; reflexivity|]. rewrite asked_app, Hx, Hy. reflexivity.
Qed.
Lemma quiet_admits ev : asked [ev] = [] -> admits quiet ev.
Proof. intros H w. exists [ev]. auto. Qed.
Lemma quiet_writes : writes quiet.
Proof.
  intros p w w' H. exists []. rewrite app_nil_r. split; [apply (wrote_trace _ _ _ H)|reflexivity].
Qed.
Lemma quiet_draws : draws_ok quiet.
Proof. intros w. exists []. cbn. rewrite app_nil_r. auto. Qed.
Lemma quiet_validate {L} e c : keeps quiet (@validate L e c).
Proof.
  intros l w. unfold validate. destruct (run_validate _ _ _) as [[x|] slot];
    exists [EvValidate c]; split; reflexivity.
Qed.
Ltac quietly := pose proof quiet_frame as F;
  repeat (first [keep_step F|apply quiet_writes|apply quiet_draws|apply quiet_validate]).

(** [m] started in [l] follows one of the plans [R]: completely if it succeeds. *)
Definition follows {L A} (R : list (list prop)) (l : L) (m : M L A) : Prop :=
  forall w, match m l w with (r, _, w') =>
    exists evs, w_trace w' = w_trace w ++ evs /\
      (exists rest, In (asked evs ++ rest) R) /\ (forall a, r = Ok a -> In (asked evs) R)
  end.

(** What may follow once [q] has been asked. *)
Fixpoint after (q : prop) (R : list (list prop)) : list (list prop) :=
  match R with
  | [] => []
  | (p :: r) :: R => if prop_eq_dec p q then r :: after q R else after q R
  | [] :: R => after q R
  end.
Lemma after_in q R x : In x (after q R) -> In (q :: x) R.
Proof.
  induction R as [|[|p r] R IH]; cbn [after]; [intros []|intros H; right; auto|].
  destruct (prop_eq_dec p q) as [->|N]; [|intros H; right; auto].
  intros [->|H]; [left; reflexivity|right; auto].
Qed.

Lemma follows_ret {L A} R (l : L) (a : A) : In [] R -> follows R l (ret a).
Proof.
  intros H w. exists []. rewrite app_nil_r. split; [reflexivity|]. split; [exists []; exact H|auto].
Qed.
Lemma follows_fail {L A} R (l : L) x : R <> [] -> follows R l (@fail L A x).
Proof.
  intros H w. exists []. rewrite app_nil_r. split; [reflexivity|].
  split; [|intros a [=]]. destruct R as [|r R]; [contradiction|]. exists r. left. reflexivity.
Qed.
Lemma follows_panic {L A} R (l : L) : R <> [] -> follows R l (@panic L A).
Proof.
  intros H w. exists []. rewrite app_nil_r. split; [reflexivity|].
  split; [|intros a [=]]. destruct R as [|r R]; [contradiction|]. exists r. left. reflexivity.
Qed.
Lemma follows_getl {L A} R (l : L) (k : L -> M L A) : follows R l (k l) -> follows R l (bind getl k).
Proof. exact (fun H => H). Qed.
Lemma follows_setl {L A} R (l l' : L) (k : unit -> M L A) :
  follows R l' (k tt) -> follows R l (bind (setl l') k).
Proof. intros H w. exact (H w). Qed.
Lemma follows_assoc {L A B C} R (l : L) (m : M L A) (f : A -> M L B) (k : B -> M L C) :
  follows R l (bind m (fun a => bind (f a) k)) -> follows R l (bind (bind m f) k).
Proof.
  intros H w. specialize (H w). unfold bind in *. destruct (m l w) as [[[a|x|] l1] w1]; exact H.
Qed.
Lemma follows_quiet {L A B} R (l : L) (m : M L A) (k : A -> M L B) :
  keeps quiet m -> R <> [] -> (forall a l', follows R l' (k a)) -> follows R l (bind m k).
Proof.
  intros Hm Hr Hk w. unfold bind. specialize (Hm l w).
  destruct (m l w) as [[[a|x|] l1] w1].
  - destruct Hm as [e1 [E1 H1]]. specialize (Hk a l1 w1).
    destruct (k a l1 w1) as [[r l2] w2]. destruct Hk as [e2 [E2 [Hx Ho]]].
    exists (e1 ++ e2). rewrite E2, E1, app_assoc, asked_app, H1. auto.
  - destruct Hm as [e1 [E1 H1]]. exists e1. rewrite H1. split; [exact E1|].
    split; [|intros a [=]]. destruct R as [|r R]; [contradiction|]. exists r. left. reflexivity.
  - destruct Hm as [e1 [E1 H1]]. exists e1. rewrite H1. split; [exact E1|].
    split; [|intros a [=]]. destruct R as [|r R]; [contradiction|]. exists r. left. reflexivity.
Qed.

Lemma quiet_maybe_need {L G} e q c (f : pval q -> M L G) l w :
  (forall v, keeps quiet (f v)) ->
  match maybe_need_with e q c f l w with (_, _, w') =>
    exists evs, w_trace w' = w_trace w ++ evs /\ asked evs = [q] end.
Proof.
  intros Hf. pose proof quiet_frame as F. unfold maybe_need_with. rewrite add_event_events.
  pose proof (keeps_run_satisfy_at _ F q f (e_cb e (w_trace w) (e_sd e) c (RSatisfy q)) CrOpen
    (quiet_admits (EvClosure q) eq_refl) (fun v => quiet_admits (EvAnswer q v) eq_refl) Hf l
    (add_events [EvRequest q c] w)) as K.
  destruct (run_satisfy _ _ _ _ _ _) as [[[r st] l1] w1].
  assert (R : exists evs, w_trace w1 = w_trace w ++ evs /\ asked evs = [q]).
  { destruct K as [e1 [E1 H1]]. exists (EvRequest q c :: e1). split.
    - rewrite E1. cbn. rewrite <- app_assoc. reflexivity.
    - cbn. rewrite H1. reflexivity. }
  destruct r as [r|x|]; [destruct (mask_early r) as [x|]; [destruct x|]|..]; exact R.
Qed.
Lemma follows_asks {L A B} R q (l : L) (m : M L A) (k : A -> M L B) :
  (forall l w, match m l w with (_, _, w') =>
    exists evs, w_trace w' = w_trace w ++ evs /\ asked evs = [q] end) ->
  after q R <> [] -> (forall a l', follows (after q R) l' (k a)) -> follows R l (bind m k).
Proof.
  intros Hm Hr Hk w. unfold bind. specialize (Hm l w).
  assert (N : forall e1, asked e1 = [q] -> exists rest, In (asked e1 ++ rest) R).
  { intros e1 H1. rewrite H1. destruct (after q R) as [|r R'] eqn:E; [contradiction|].
    exists r. apply after_in. rewrite E. left. reflexivity. }
  destruct (m l w) as [[[a|x|] l1] w1]; destruct Hm as [e1 [E1 H1]].
  - specialize (Hk a l1 w1).
    destruct (k a l1 w1) as [[r l2] w2]. destruct Hk as [e2 [E2 [[rest Hx] Ho]]].
    exists (e1 ++ e2). rewrite E2, E1, app_assoc, asked_app, H1. split; [reflexivity|]. split.
    + exists rest. apply after_in. exact Hx.
    + intros b Hb. apply after_in. exact (Ho b Hb).
  - exists e1. split; [exact E1|]. split; [auto|intros a [=]].
  - exists e1. split; [exact E1|]. split; [auto|intros a [=]].
Qed.
Lemma follows_maybe {L A G} R (l : L) e q c (f : pval q -> M L G) (k : option G -> M L A) :
  (forall v, keeps quiet (f v)) -> after q R <> [] ->
  (forall a l', follows (after q R) l' (k a)) -> follows R l (bind (maybe_need_with e q c f) k).
Proof. intros Hf. apply follows_asks. intros. apply quiet_maybe_need. exact Hf. Qed.
Lemma follows_need {L A G} R (l : L) e q c (f : pval q -> M L G) (k : G -> M L A) :
  (forall v, keeps quiet (f v)) -> after q R <> [] ->
  (forall a l', follows (after q R) l' (k a)) -> follows R l (bind (need_with e q c f) k).
Proof.
  intros Hf. apply follows_asks. intros l0 w. unfold need_with, bind.
  pose proof (quiet_maybe_need e q c f l0 w Hf) as H.
  destruct (maybe_need_with e q c f l0 w) as [[[[g|]|x|] l1] w1]; exact H.
Qed.
Lemma quiet_action {L} e q c v (l : L) w :
  match action e q c v l w with (_, _, w') =>
    exists evs, w_trace w' = w_trace w ++ evs /\ asked evs = [q] end.
Proof.
  unfold action.
  pose proof (run_action_taken q (e_cb e (w_trace w) (e_sd e) c (RAction q)) (Some v)
    (w_trace w ++ [EvAction q v c])) as [evs [Hf Ev]].
  destruct (run_action _ _ _ _) as [[r slot] tr]. simpl in Ev.
  assert (K : exists ev, tr = w_trace w ++ ev /\ asked ev = [q]).
  { exists (EvAction q v c :: evs). rewrite Ev, <- app_assoc. split; [reflexivity|]. cbn. f_equal.
    clear - Hf. induction Hf as [|ev r -> _ IH]; [reflexivity|exact IH]. }
  destruct (mask_early r); [exact K|]. destruct slot; exact K.
Qed.
Lemma follows_action {L A} R (l : L) e q c v (k : unit -> M L A) : after q R <> [] ->
  (forall a l', follows (after q R) l' (k a)) -> follows R l (bind (action e q c v) k).
Proof. apply follows_asks. intros. apply quiet_action. Qed.
Lemma follows_ignore {L A} R (l : L) e q c v (k : unit -> M L A) : after q R <> [] ->
  (forall a l', follows (after q R) l' (k a)) -> follows R l (bind (ignore (action e q c v)) k).
Proof.
  apply follows_asks. intros l0 w. unfold ignore. pose proof (quiet_action e q c v l0 w) as H.
  destruct (action e q c v l0 w) as [[[u|x|] l1] w1]; exact H.
Qed.
(** A computation with local variables of its own. *)
Lemma follows_locally {L L' A B} R R' (l : L) (l0 : L') (m : M L' A) (k : A * L' -> M L B) :
  follows R' l0 m -> (forall a l', follows [[]] l' (k a)) -> R' = R ->
  follows R l (bind (locally l0 m) k).
Proof.
  intros Hm Hk -> w. unfold bind, locally. specialize (Hm w).
  destruct (m l0 w) as [[[a|x|] l1] w1]; destruct Hm as [e1 [E1 [H1 H2]]].
  - specialize (Hk (a, l1) l w1). destruct (k (a, l1) l w1) as [[r l2] w2].
    destruct Hk as [e2 [E2 [[rest [Hx|[]]] Ho]]]. exists (e1 ++ e2).
    rewrite E2, E1, app_assoc, asked_app. symmetry in Hx. apply app_eq_nil in Hx.
    destruct Hx as [-> _]. rewrite app_nil_r. split; [reflexivity|]. split; [exact H1|].
    intros b _. exact (H2 a eq_refl).
  - exists e1. split; [exact E1|]. split; [exact H1|intros b [=]].
  - exists e1. split; [exact E1|]. split; [exact H1|intros b [=]].
Qed.
Lemma follows_of_res {L A B} R (l : L) (r : res serr A) (k : A -> M L B) : R <> [] ->
  (forall a l', follows R l' (k a)) -> follows R l (bind (of_res r) k).
Proof. intros H Hk. apply follows_quiet; [quietly|exact H|exact Hk]. Qed.

Lemma follows_tail {L A} R (l : L) (m : M L A) : follows R l (bind m ret) -> follows R l m.
Proof.
  intros H w. specialize (H w). unfold bind in H. destruct (m l w) as [[[a|x|] l1] w1]; exact H.
Qed.
Lemma follows_locally_need {L L' A G} R (l : L) (l0 : L') e q c (f : pval q -> M L' G)
    (k : G * L' -> M L A) :
  (forall v, keeps quiet (f v)) -> after q R <> [] ->
  (forall a l', follows (after q R) l' (k a)) ->
  follows R l (bind (locally l0 (need_with e q c f)) k).
Proof.
  intros Hf. apply follows_asks. intros l1 w. unfold locally, need_with, bind.
  pose proof (quiet_maybe_need e q c f l0 w Hf) as H.
  destruct (maybe_need_with e q c f l0 w) as [[[[g|]|x|] l2] w1]; exact H.
Qed.

Ltac follow :=
  lazymatch goal with
  | |- follows _ _ (ret _) => apply follows_ret; cbn; tauto
  | |- follows _ _ (fail _) => apply follows_fail; discriminate
  | |- follows _ _ panic => apply follows_panic; discriminate
  | |- follows _ _ (bind (fail _) _) => apply (follows_fail (A := _)); discriminate
  | |- follows _ _ (bind panic _) => apply (follows_panic (A := _)); discriminate
  | |- follows _ _ (bind (scram_proto _) _) => unfold scram_proto
  | |- follows _ _ (bind getl _) => apply follows_getl
  | |- follows _ _ (bind (setl _) _) => apply follows_setl
  | |- follows _ _ (bind (bind _ _) _) => apply follows_assoc
  | |- follows _ _ (bind (maybe_need_with _ _ _ _) _) =>
      apply follows_maybe; [intros ?; solve [quietly]|cbn; discriminate|cbn [after]; intros ? ?]
  | |- follows _ _ (bind (need_with _ _ _ _) _) =>
      apply follows_need; [intros ?; solve [quietly]|cbn; discriminate|intros ? ?]
  | |- follows _ _ (bind (locally _ (need_with _ _ _ _)) _) =>
      apply follows_locally_need; [intros ?; solve [quietly]|cbn; discriminate|intros ? ?]
  | |- follows _ _ (bind (need_cb_data _ _ _ _) _) => unfold need_cb_data
  | |- follows _ _ (bind (maybe_need_cb_data _ _ _ _) _) => unfold maybe_need_cb_data
  | |- follows _ _ (bind (log (EvChan _)) _) =>
      apply follows_quiet; [apply keeps_log; apply quiet_admits; reflexivity|discriminate|intros ? ?]
  | |- follows _ _ (bind (action _ _ _ _) _) =>
      apply follows_action; [cbn; discriminate|intros ? ?]
  | |- follows _ _ (bind (ignore (action _ _ _ _)) _) =>
      apply follows_ignore; [cbn; discriminate|intros ? ?]
  | |- follows _ _ (bind (match ?x with _ => _ end) _) => destruct x
  | |- follows _ _ (match ?x with _ => _ end) => destruct x
  | |- follows _ _ (bind (locally _ _) _) =>
      first [apply follows_quiet; [solve [quietly]|discriminate|intros ? ?]
            |eapply follows_locally; [|intros ? ?|reflexivity]]
  | |- follows _ _ (bind _ _) =>
      apply follows_quiet; [solve [quietly]|discriminate|intros ? ?]
  | |- follows _ _ _ => apply follows_tail
  end.

Lemma step_follows e input m w :
  match mech_step e input m w with (r, _, w') =>
    exists evs, w_trace w' = w_trace w ++ evs /\
      (exists rest, In (asked evs ++ rest) (plans m)) /\
      (forall a, r = Ok a -> In (asked evs) (plans m)) end.
Proof.
  unfold mech_step. unfold bind at 1, getl.
  assert (K : forall L (wrap : L -> mech) l0 (k : M L state), follows (plans m) l0 k ->
    match on wrap l0 k m w with (r, _, w') =>
    exists evs, w_trace w' = w_trace w ++ evs /\
      (exists rest, In (asked evs ++ rest) (plans m)) /\
      (forall a, r = Ok a -> In (asked evs) (plans m)) end).
  { intros L wrap l0 k H. unfold on. specialize (H w). destruct (k l0 w) as [[r l1] w1]. exact H. }
  destruct m; apply K; clear K; unfold_steps; cbn [plans]; repeat follow.
Qed.

Theorem follows_plans e s input script r out s' evs :
  step e s input script = (r, out, s') -> new_events s s' evs ->
  (exists rest, In (asked evs ++ rest) (plans (s_mech s))) /\
  (forall st, r = Ok st -> In (asked evs) (plans (s_mech s))).
Proof.
  intros H Hn. unfold step, run in H.
  pose proof (step_follows e input (s_mech s)
    (mk_world [] script (s_trace s) (s_rng s) (s_val s))) as K.
  destruct (mech_step e input (s_mech s) _) as [[r1 m1] w1].
  injection H as <- <- <-. destruct K as [ev2 [E Hf]].
  unfold new_events in Hn. cbn in Hn, E. rewrite E in Hn. apply app_inv_head in Hn. subst. exact Hf.
Qed.

Lemma transfers_quiet e s input script :
  s_trace (snd (session_encode e s input script)) = s_trace s /\
  s_trace (snd (session_decode e s input script)) = s_trace s.
Proof.
  assert (F : frame (fun w w' => w_trace w' = w_trace w)) by (split; congruence).
  assert (W : writes (fun w w' => w_trace w' = w_trace w)).
  { intros p w w' H. apply (wrote_trace _ _ _ H). }
  split; unfold session_encode, session_decode, run.
  - assert (K : keeps (fun w w' => w_trace w' = w_trace w) (mech_encode e input)).
    { unfold mech_encode, gss_client_encode, gss_server_encode. unfold_steps.
      repeat (first [keep_step F|apply W]). }
    specialize (K (s_mech s) (mk_world [] script (s_trace s) (s_rng s) (s_val s))).
    destruct (mech_encode _ _ _ _) as [[r m] w]. exact K.
  - assert (K : keeps (fun w w' => w_trace w' = w_trace w) (mech_decode e input)).
    { unfold mech_decode, gss_client_decode, gss_server_decode. unfold_steps.
      repeat (first [keep_step F|apply W]). }
    specialize (K (s_mech s) (mk_world [] script (s_trace s) (s_rng s) (s_val s))).
    destruct (mech_decode _ _ _ _) as [[r m] w]. exact K.
Qed.
