(** Lemmas about what a failing step has written. *)
From Coq Require Import Lia.
From Verif Require Import Bytes Base64 Types World CallbackSpec WorldFacts MonadFacts Simple OAuth ScramParser Scram
  Gssapi Session Frame Spec_Simple Spec_Errors Spec_Flow Spec_Early Proof_Errors.
Open Scope m_scope.

(** * Steps that write at their end *)

Definition failed (w : world) : Prop := exists y, writer_failed (w_script w) y.
Lemma failed_left w w1 : script_left (w_script w) (w_script w1) -> failed w1 -> failed w.
Proof. intros S [y H]. exists y. eapply writer_failed_left; eauto. Qed.

(** Nothing is written. *)
Definition quiet (w w' : world) : Prop :=
  w_out w' = w_out w /\ script_left (w_script w) (w_script w').
Lemma quiet_frame : frame quiet.
Proof.
  split; unfold quiet; [intros; split; [reflexivity|apply script_left_refl]|].
  intros a b c [O1 S1] [O2 S2]. split; [congruence|eapply script_left_trans; eauto].
Qed.
Lemma quiet_admits ev : admits quiet ev.
Proof. intros w. split; [reflexivity|apply script_left_refl]. Qed.
Lemma quiet_asks q : asks quiet q.
Proof. split; [|split]; intros; apply quiet_admits. Qed.
Lemma quiet_draws : draws_ok quiet.
Proof. intros w. split; [reflexivity|apply script_left_refl]. Qed.
Lemma quiet_validate {L} e c : keeps quiet (@validate L e c).
Proof.
  intros l w. unfold validate.
  destruct (run_validate _ _ _) as [[|] slot]; (split; [reflexivity|apply script_left_refl]).
Qed.
Ltac hushed := repeat (first
  [ keep_step quiet_frame | apply quiet_validate | apply quiet_asks | apply quiet_draws
  | apply quiet_admits | intros; apply quiet_admits ]).

Section Excuse.
Context (ex : serr -> Prop).

(** [m] fails only for the writer, or with an excuse. *)
Definition sure {L A} (m : M L A) : Prop := forall l w,
  match m l w with (r, _, w1) =>
    script_left (w_script w) (w_script w1) /\
    match r with Ok _ => True | Err x => failed w \/ ex x | Panic => failed w end
  end.
(** If [m] fails otherwise, it has not written. *)
Definition late {L A} (m : M L A) : Prop := forall l w,
  match m l w with (r, _, w1) =>
    script_left (w_script w) (w_script w1) /\
    match r with
    | Ok _ => True
    | Err x => w_out w1 = w_out w \/ failed w \/ ex x
    | Panic => w_out w1 = w_out w \/ failed w
    end
  end.

Lemma sure_late {L A} (m : M L A) : sure m -> late m.
Proof.
  intros H l w. specialize (H l w). destruct (m l w) as [[[a|x|] l1] w1]; tauto.
Qed.
Lemma quiet_late {L A} (m : M L A) : keeps quiet m -> late m.
Proof.
  intros H l w. specialize (H l w). destruct (m l w) as [[r l1] w1]. destruct H as [O S].
  destruct r; auto.
Qed.
Lemma late_after {L A B} (m : M L A) (f : A -> M L B) :
  keeps quiet m -> (forall a, late (f a)) -> late (bind m f).
Proof.
  intros H K l w. specialize (H l w). unfold bind. destruct (m l w) as [[[a|x|] l1] w1].
  - destruct H as [O S]. specialize (K a l1 w1). destruct (f a l1 w1) as [[r l2] w2].
    destruct K as [S2 K]. split; [eapply script_left_trans; eauto|]. rewrite O in K.
    destruct r; auto.
    + destruct K as [K|[K|K]]; auto. right; left; eapply failed_left; eauto.
    + destruct K as [K|K]; auto. right; eapply failed_left; eauto.
  - destruct H as [O S]; auto.
  - destruct H as [O S]; auto.
Qed.
Lemma late_before {L A B} (m : M L A) (f : A -> M L B) :
  late m -> (forall a, sure (f a)) -> late (bind m f).
Proof.
  intros H K l w. specialize (H l w). unfold bind. destruct (m l w) as [[[a|x|] l1] w1]; [|exact H|exact H].
  destruct H as [S _]. specialize (K a l1 w1). destruct (f a l1 w1) as [[r l2] w2].
  destruct K as [S2 K]. split; [eapply script_left_trans; eauto|].
  destruct r; auto.
  - destruct K as [K|K]; auto. right; left; eapply failed_left; eauto.
  - right; eapply failed_left; eauto.
Qed.
Lemma late_locally {L L' A} (l0 : L') (m : M L' A) : late m -> late (@locally L L' A l0 m).
Proof.
  intros H l w. specialize (H l0 w). unfold locally. destruct (m l0 w) as [[[a|x|] l1] w1]; exact H.
Qed.

Lemma sure_ret {L A} (a : A) : sure (@ret L A a).
Proof. intros l w. split; [apply script_left_refl|exact Logic.I]. Qed.
Lemma sure_getl {L} : sure (@getl L).
Proof. intros l w. split; [apply script_left_refl|exact Logic.I]. Qed.
Lemma sure_setl {L} (x : L) : sure (setl x).
Proof. intros l w. split; [apply script_left_refl|exact Logic.I]. Qed.
Lemma sure_bind {L A B} (m : M L A) (f : A -> M L B) :
  sure m -> (forall a, sure (f a)) -> sure (bind m f).
Proof.
  intros H K l w. specialize (H l w). unfold bind. destruct (m l w) as [[[a|x|] l1] w1]; [|exact H|exact H].
  destruct H as [S _]. specialize (K a l1 w1). destruct (f a l1 w1) as [[r l2] w2].
  destruct K as [S2 K]. split; [eapply script_left_trans; eauto|].
  destruct r; auto.
  - destruct K as [K|K]; auto. left; eapply failed_left; eauto.
  - eapply failed_left; eauto.
Qed.
Lemma sure_write_all {L} data : sure (@write_all L data).
Proof.
  intros l w.
  pose proof (sound_write_all (fun s _ _ x => exists y, writer_failed s y)
    (fun s tr y H => ex_intro _ y H) (L := L) data l w) as H.
  unfold sound_at in H. destruct (write_all_spec data l w) as (p & q & w' & _ & _ & [[E _]|[x E]]);
    rewrite E in *; destruct H as (evs & _ & S & H); (split; [exact S|]); auto.
  left. exact (H _ eq_refl).
Qed.
Lemma sure_write_all_vectored {L} bufs : sure (@write_all_vectored L bufs).
Proof.
  intros l w.
  pose proof (sound_write_all_vectored (fun s _ _ x => exists y, writer_failed s y)
    (fun s tr y H => ex_intro _ y H) (L := L) bufs l w) as H.
  unfold sound_at in H. destruct (write_all_vectored_spec bufs l w) as (p & q & w' & _ & _ & [[E _]|[x E]]);
    rewrite E in *; destruct H as (evs & _ & S & H); (split; [exact S|]); auto.
  left. exact (H _ eq_refl).
Qed.
Lemma sure_write_json {L} e x : sure (@write_json L e x).
Proof.
  intros l w. unfold write_json.
  pose proof (sound_write_all (fun s _ _ x => exists y, writer_failed s y)
    (fun s tr y H => ex_intro _ y H) (L := L) (e_json_to e x) l w) as H.
  unfold sound_at in H.
  destruct (write_all_spec (e_json_to e x) l w) as (p & q & w' & _ & _ & [[E _]|[y E]]);
    rewrite E in *; destruct H as (evs & _ & S & H); (split; [exact S|]); auto.
  left. exact (H _ eq_refl).
Qed.

Context (quit : ~ ex ECbNoValue /\ ~ ex ECbEarlyReturn).
Lemma late_maybe_need {L G} e q c (f : pval q -> M L G) :
  polite e -> (forall v, late (f v)) -> late (maybe_need_with e q c f).
Proof.
  intros P H l w. destruct (maybe_need_with_bubbling e q c f l w (P _ _ _)) as [cs [_ E]].
  rewrite E. clear E. destruct (answer q _) as [r|v].
  - split; [apply script_left_refl|]. destruct r as [[]|]; cbn; auto.
  - specialize (H v l (add_events (EvRequest q c :: cs ++ [EvAnswer q v]) w)).
    destruct (f v l _) as [[[g|x|] l1] w1]; destruct H as [S H]; (split; [exact S|]); cbn; auto.
    destruct x; cbn; auto.
Qed.
Lemma late_need {L G} e q c (f : pval q -> M L G) :
  polite e -> (forall v, late (f v)) -> late (need_with e q c f).
Proof.
  intros P H l w. unfold need_with, bind.
  destruct (maybe_need_with_bubbling e q c f l w (P _ _ _)) as [cs [_ E]].
  rewrite E. clear E. destruct (answer q _) as [r|v].
  - destruct r as [[]|]; cbn; (split; [apply script_left_refl|]); auto.
  - specialize (H v l (add_events (EvRequest q c :: cs ++ [EvAnswer q v]) w)).
    destruct (f v l _) as [[[g|x|] l1] w1]; destruct H as [S H];
      [split; [exact S|exact Logic.I]| |split; [exact S|exact H]].
    destruct x; cbn in *; (split; [exact S|]); auto; destruct H as [H|[H|H]]; auto; tauto.
Qed.
End Excuse.

Definition none (x : serr) : Prop := False.
Definition refused (x : serr) : Prop := exists v, x = EValidation v.
Lemma sure_validate {L} e c : sure refused (@validate L e c).
Proof.
  intros l w. unfold validate.
  destruct (run_validate _ _ _) as [[v|] slot]; (split; [apply script_left_refl|]); auto.
  right. exists v. reflexivity.
Qed.

Ltac surely := repeat (lazymatch goal with
  | |- sure _ (ret _) => apply sure_ret
  | |- sure _ getl => apply sure_getl
  | |- sure _ (setl _) => apply sure_setl
  | |- sure _ (write_all _) => apply sure_write_all
  | |- sure _ (write_all_vectored _) => apply sure_write_all_vectored
  | |- sure _ (write_json _ _) => apply sure_write_json
  | |- sure _ (validate _ _) => apply sure_validate
  | |- sure _ (bind _ _) => apply sure_bind; [|intros ?]
  | |- sure _ (match ?x with _ => _ end) => destruct x
  end).
Ltac lately := repeat (lazymatch goal with
  | |- late _ (match ?x with _ => _ end) => destruct x
  | |- late _ (bind (locally _ _) _) => apply late_before; [apply late_locally|intros ?; solve [surely]]
  | |- late _ (bind _ _) =>
      first [ apply late_after; [solve [hushed]|intros ?]
            | apply late_before; [|intros ?; solve [surely]] ]
  | |- late _ (maybe_need_with _ _ _ _) => apply late_maybe_need; [assumption|intros ?]
  | |- late _ (need_with _ _ _ _) => apply late_need; [(split; (intros []; discriminate) || (intros [? ?]; discriminate)) || idtac|assumption|intros ?]
  | |- late _ _ => first [ apply quiet_late; solve [hushed] | apply sure_late; solve [surely] ]
  end).

Lemma late_on {L A} ex (wrap : L -> mech) (l : L) (m : M L A) : late ex m -> late ex (on wrap l m).
Proof.
  intros H x w. specialize (H l w). unfold on. destruct (m l w) as [[r l1] w1]. exact H.
Qed.
Lemma late_on_at {L A} ex (wrap : L -> mech) (l : L) (f : L -> M L A) :
  late ex (f l) -> late ex (on wrap l (bind getl f)).
Proof.
  intros H x w. specialize (H l w). unfold on, bind, getl.
  destruct (f l l w) as [[r l1] w1]. exact H.
Qed.
Ltac here := match goal with
  | |- late _ (on _ _ (?f _ _)) => unfold f
  | |- late _ (on _ _ (?f _ _ _)) => unfold f
  end; first [ apply late_on_at | apply late_on ]; cbv beta iota.
Lemma late_step e input m : polite e -> ~ writes_early m EInputDataRequired ->
  late (writes_early m) (fun _ => mech_step e input m).
Proof.
  intros P N. unfold mech_step, bind, getl.
  enough (H : late (writes_early m) (match m with
    | XPlainC => on (fun _ => XPlainC) tt (plain_client_step e input)
    | XPlainS => on (fun _ => XPlainS) tt (plain_server_step e input)
    | XLoginC s => on XLoginC s (login_client_step e input)
    | XLoginS s => on XLoginS s (login_server_step e input)
    | XExternalC => on (fun _ => XExternalC) tt (external_client_step e input)
    | XExternalS => on (fun _ => XExternalS) tt (external_server_step e input)
    | XAnonymousC => on (fun _ => XAnonymousC) tt (anonymous_client_step e input)
    | XAnonymousS => on (fun _ => XAnonymousS) tt (anonymous_server_step e input)
    | XXOAuth2C s => on XXOAuth2C s (xoauth2_client_step e input)
    | XXOAuth2S s => on XXOAuth2S s (xoauth2_server_step e input)
    | XOAuthBearerC s => on XOAuthBearerC s (oauthbearer_client_step e input)
    | XOAuthBearerS s => on XOAuthBearerS s (oauthbearer_server_step e input)
    | XScramC a s => on (XScramC a) s (scram_client_step e a input)
    | XScramS a s => on (XScramS a) s (scram_server_step e a input)
    | XGssapiC s => on XGssapiC s (gss_client_step e input)
    | XGssapiS s => on XGssapiS s (gss_server_step e input)
    end)).
  { intros l w. apply (H m w). }
  destruct m as [| |l|l| | | | |[]|[]|[]|[]|a [[]|]|a [[]|]|[]|[]];
    try solve [exfalso; apply N; exact Logic.I]; cbn [writes_early].
  all: match goal with |- late _ ?m => first [change (late none m) | change (late refused m)] end.
  all: here; unfold_steps; lately.
Qed.

Theorem failed_wrote e s input script x out s' :
  polite e -> step e s input script = (Err x, out, s') -> out <> [] ->
  (exists y, writer_failed script y) \/ writes_early (s_mech s) x.
Proof.
  intros P H O.
  assert (D : (writes_early (s_mech s) EInputDataRequired -> writes_early (s_mech s) x) /\
    (writes_early (s_mech s) EInputDataRequired \/ ~ writes_early (s_mech s) EInputDataRequired)).
  { destruct (s_mech s) as [| |l|l| | | | |[]|[]|[]|[]|a [[]|]|a [[]|]|[]|[]];
      (split; [intros K; first [exact Logic.I | destruct K as [v K]; discriminate K | destruct K]|]);
      first [left; exact Logic.I | right; intros [v K]; discriminate K | right; intros []]. }
  destruct D as [D [N|N]]; [right; auto|].
  pose proof (late_step e input (s_mech s) P N) as Q.
  apply run_ok in H. destruct H as (m' & w' & E & -> & _).
  specialize (Q (s_mech s) (mk_world [] script (s_trace s) (s_rng s) (s_val s))).
  cbv beta in Q. rewrite E in Q. destruct Q as [_ [Q|[Q|Q]]]; [contradiction|left; exact Q|right; exact Q].
Qed.

(** * What the clients that write piece by piece have written *)

Lemma ask {L G} e q c (f : pval q -> M L G) l w r l1 w1 :
  polite e -> maybe_need_with e q c f l w = (r, l1, w1) ->
  exists evs,
    (w1 = add_events evs w /\ (r = Ok None \/ exists x, r = Err x)) \/
    (exists v r0, In v (answers q evs) /\ f v l (add_events evs w) = (r0, l1, w1) /\ r = polite_result r0).
Proof.
  intros P H. destruct (maybe_need_with_bubbling e q c f l w (P _ _ _)) as [cs [_ E]].
  rewrite H in E. destruct (answer q _) as [r0|v].
  - exists (EvRequest q c :: cs). left. injection E as -> -> ->. split; [reflexivity|].
    destruct r0 as [[]|]; cbn; eauto.
  - exists (EvRequest q c :: cs ++ [EvAnswer q v]). right. exists v.
    destruct (f v l _) as [[r0 l2] w2] eqn:F. injection E as -> -> ->. exists r0.
    split; [|split; [first [exact F|reflexivity]|reflexivity]].
    cbn [answers]. rewrite answers_app. apply in_or_app. right. cbn [answers]. rewrite castp_refl. left. reflexivity.
Qed.

Definition tri {L A} (P : world -> Prop) (m : M L A) (Q : A -> world -> Prop) (X : world -> Prop) : Prop :=
  forall l w, P w ->
    match m l w with (Ok a, _, w1) => Q a w1 | (Err _, _, w1) => X w1 | (Panic, _, w1) => X w1 end.
Lemma tri_bind {L A B} P (m : M L A) Q X (f : A -> M L B) R :
  tri P m Q X -> (forall a, tri (Q a) (f a) R X) -> tri P (bind m f) R X.
Proof.
  intros H K l w p. specialize (H l w p). unfold bind. destruct (m l w) as [[[a|x|] l1] w1]; auto.
  exact (K a l1 w1 H).
Qed.
Lemma tri_ex {L A T} (P : T -> world -> Prop) (m : M L A) Q X :
  (forall t, tri (P t) m Q X) -> tri (fun w => exists t, P t w) m Q X.
Proof. intros H l w [t p]. exact (H t l w p). Qed.
Lemma tri_post {L A} P (m : M L A) Q X (Q' : A -> world -> Prop) (X' : world -> Prop) :
  tri P m Q X -> (forall a w, Q a w -> Q' a w) -> (forall w, X w -> X' w) -> tri P m Q' X'.
Proof.
  intros H K J l w p. specialize (H l w p). destruct (m l w) as [[[a|x|] l1] w1]; auto.
Qed.
Lemma tri_done {L A} P (m : M L A) X : (forall l w, exists a l1, m l w = (Ok a, l1, w)) -> tri P m (fun _ => P) X.
Proof. intros H l w p. destruct (H l w) as (a & l1 & ->). exact p. Qed.

(** To a writer that accepts everything [o] has been written, and [F] tells of the events. *)
Definition st (tr : list event) (o : bytes) (F : list event -> Prop) (w : world) : Prop :=
  w_script w = [] /\ w_out w = o /\ exists evs, w_trace w = tr ++ evs /\ F evs.
Definition grows (F : list event -> Prop) : Prop := forall a b, F a -> F (a ++ b).
Lemma grows_answer F q (v : pval q) : grows F -> grows (fun evs => F evs /\ In v (answers q evs)).
Proof.
  intros G a b [H K]. split; [apply G, H|]. rewrite answers_app. apply in_or_app. auto.
Qed.
Lemma st_events tr o F w evs : grows F -> st tr o F w -> st tr o F (add_events evs w).
Proof.
  intros G (S & O & ev & T & H). split; [exact S|]. split; [exact O|].
  exists (ev ++ evs). split; [cbn; rewrite T, app_assoc; reflexivity|apply G, H].
Qed.
Lemma st_out tr o F w d : st tr o F w -> st tr (o ++ d) F (add_out d w).
Proof. intros (S & O & H). split; [exact S|]. split; [cbn; rewrite O; reflexivity|exact H]. Qed.
Lemma tri_write {L} tr o F d X : tri (st tr o F) (@write_all L d) (fun _ => st tr (o ++ d) F) X.
Proof. intros l w H. rewrite write_all_full by apply H. apply st_out, H. Qed.

(** A consumer of values that writes [t v], or fails before it writes. *)
Definition writes_text {L R0} {V : Type} (t : V -> bytes) (f : V -> M L R0) : Prop :=
  forall v l w, w_script w = [] ->
    (exists x, f v l w = (Err x, l, w) /\ x <> ECbNoValue /\ x <> ECbEarlyReturn) \/
    (exists g, f v l w = (Ok g, l, add_out (t v) w)).
Definition plus_answer (F : list event -> Prop) (q : prop) (v : pval q) (evs : list event) : Prop :=
  F evs /\ In v (answers q evs).
Lemma tri_maybe {L R0} e q c (f : pval q -> M L R0) t tr o F :
  polite e -> grows F -> writes_text t f ->
  tri (st tr o F) (maybe_need_with e q c f)
    (fun a w => st tr o F w \/ exists v, st tr (o ++ t v) (plus_answer F q v) w) (st tr o F).
Proof.
  intros P G W l w H. destruct (maybe_need_with e q c f l w) as [[r l1] w1] eqn:E.
  destruct (ask _ _ _ _ _ _ _ _ _ P E) as [evs [[-> R]|(v & r0 & V & Q & ->)]].
  - pose proof (st_events tr o F w evs G H) as K. destruct R as [->|[x ->]]; auto.
  - pose proof (st_events tr o F w evs G H) as K.
    destruct (W v l (add_events evs w) (proj1 K)) as [(x & Fx & N1 & N2)|[g Fg]].
    + rewrite Fx in Q. injection Q as <- <- <-. destruct x; cbn; auto.
    + rewrite Fg in Q. injection Q as <- <- <-. cbn. right. exists v. apply st_out.
      destruct H as (S & O & ev & T & D). split; [exact S|]. split; [exact O|].
      exists (ev ++ evs). split; [cbn; rewrite T, app_assoc; reflexivity|].
      split; [apply G, D|]. rewrite answers_app. apply in_or_app. auto.
Qed.
Lemma tri_need {L R0} e q c (f : pval q -> M L R0) t tr o F :
  polite e -> grows F -> writes_text t f ->
  tri (st tr o F) (need_with e q c f)
    (fun _ w => exists v, st tr (o ++ t v) (plus_answer F q v) w) (st tr o F).
Proof.
  intros P G W l w H. unfold need_with, bind. destruct (maybe_need_with e q c f l w) as [[r l1] w1] eqn:E.
  destruct (ask _ _ _ _ _ _ _ _ _ P E) as [evs [[-> R]|(v & r0 & V & Q & ->)]].
  - pose proof (st_events tr o F w evs G H) as K. destruct R as [->|[x ->]]; exact K.
  - pose proof (st_events tr o F w evs G H) as K.
    destruct (W v l (add_events evs w) (proj1 K)) as [(x & Fx & N1 & N2)|[g Fg]].
    + rewrite Fx in Q. injection Q as <- <- <-. destruct x; cbn; auto.
    + rewrite Fg in Q. injection Q as <- <- <-. cbn. exists v. apply st_out.
      destruct H as (S & O & ev & T & D). split; [exact S|]. split; [exact O|].
      exists (ev ++ evs). split; [cbn; rewrite T, app_assoc; reflexivity|].
      split; [apply G, D|]. rewrite answers_app. apply in_or_app. auto.
Qed.

Definition all (evs : list event) : Prop := True.
Lemma grows_all : grows all.
Proof. intros a b H. exact H. Qed.
Lemma grows_plus F q v : grows F -> grows (plus_answer F q v).
Proof. apply grows_answer. Qed.

Lemma st_answered s s' w o F q v :
  st (s_trace s) o (plus_answer F q v) w -> s_trace s' = w_trace w -> answered q v s s'.
Proof.
  intros (_ & _ & evs & T & _ & V) E. exists evs. split; [unfold new_events; congruence|exact V].
Qed.

(** ** PLAIN *)

Lemma plain_text {L} (fl : bytes -> bool) : writes_text (fun v => v) (fun v : bytes =>
  match v with
  | [] => fail (EMech (MPlain PlEmpty))
  | _ => if fl v then fail (EMech (MPlain PlContainsNull)) else @write_all L v
  end).
Proof.
  intros v l w S. destruct v as [|b v]; [left; eexists; split; [reflexivity|split; discriminate]|].
  destruct (fl (b :: v)); [left; eexists; split; [reflexivity|split; discriminate]|].
  right. exists tt. apply write_all_full, S.
Qed.
Lemma plain_text0 {L} (fl : bytes -> bool) : writes_text (fun v => v) (fun v : bytes =>
  if fl v then fail (EMech (MPlain PlContainsNull)) else @write_all L v).
Proof.
  intros v l w S. destruct (fl v); [left; eexists; split; [reflexivity|split; discriminate]|].
  right. exists tt. apply write_all_full, S.
Qed.

(** What [z] is: the answer to an optional request, or nothing. *)
Definition chosen (q : prop) (t : pval q -> bytes) (z : bytes) (F : list event -> Prop) : Prop :=
  z = [] \/ exists v, z = t v /\ forall evs, F evs -> In v (answers q evs).

Lemma tri_maybe_chosen {L R0} e q c (f : pval q -> M L R0) t tr o F :
  polite e -> grows F -> writes_text t f ->
  tri (st tr o F) (maybe_need_with e q c f)
    (fun _ w => exists z F', (grows F' /\ (forall evs, F' evs -> F evs) /\ chosen q t z F') /\ st tr (o ++ z) F' w)
    (st tr o F).
Proof.
  intros P G W. eapply tri_post; [apply (tri_maybe e q c f t); eauto| |auto].
  intros _ w [H|[v H]].
  - exists [], F. rewrite app_nil_r. split; [split; [exact G|split; [auto|left; reflexivity]]|exact H].
  - exists (t v), (plus_answer F q v). split; [|exact H].
    split; [apply grows_plus, G|]. split; [intros evs [K _]; exact K|].
    right. exists v. split; [reflexivity|]. intros evs [_ K]. exact K.
Qed.

Definition plain_shape (tr : list event) (w : world) : Prop :=
  exists z evs, w_trace w = tr ++ evs /\ (z = [] \/ In z (answers PAuthzId evs)) /\
    (w_out w = [] \/ w_out w = z ++ [nul] \/
     exists u, In u (answers PAuthId evs) /\ w_out w = z ++ nul :: u ++ [nul]).

Lemma plain_pieces e tr : polite e -> tri (st tr [] all) (plain_client_step e None) (fun _ _ => True) (plain_shape tr).
Proof.
  intros P. unfold plain_client_step.
  apply tri_bind with (Q := fun _ w => exists z F', (grows F' /\ (forall evs, F' evs -> all evs) /\
    chosen PAuthzId (fun v => v) z F') /\ st tr ([] ++ z) F' w).
  { eapply tri_post; [apply (tri_maybe_chosen e PAuthzId _ _ (fun v : bytes => v)); auto using grows_all|auto|].
    - apply (plain_text0 (contains nul)).
    - intros w (_ & O & evs & T & _). exists [], evs. auto. }
  intros a. apply tri_ex. intros z. apply tri_ex. intros F.
  intros l w ((G & _ & C) & H). revert l w H. cbn [app].
  match goal with |- forall l w, _ -> match ?m l w with _ => _ end => change (tri (st tr z F) m (fun _ _ => True) (plain_shape tr)) end.
  eapply tri_bind; [apply tri_write|]. intros ?. cbv beta.
  assert (Z : forall evs, F evs -> z = [] \/ In z (answers PAuthzId evs)).
  { intros evs K. destruct C as [->|[v [-> C]]]; auto. }
  eapply tri_bind.
  { eapply tri_post; [apply (tri_need e PAuthId _ _ (fun v : bytes => v)); [exact P|exact G|apply (plain_text (contains nul))]|intros ? ? HH; exact HH|].
    intros w (_ & O & evs & T & K). exists z, evs. auto 6. }
  intros ?. apply tri_ex. intros u. eapply tri_bind; [apply tri_write|]. intros ?. cbv beta.
  eapply tri_bind.
  { eapply tri_post; [apply (tri_need e PPassword _ _ (fun v : bytes => v)); [exact P|apply grows_plus; exact G|apply (plain_text (contains nul))]|intros ? ? HH; exact HH|].
    intros w (_ & O & evs & T & K & U). exists z, evs. split; [exact T|]. split; [auto|]. right; right. exists u.
    split; [exact U|]. rewrite O, <- !app_assoc. reflexivity. }
  intros ? ? ? _. exact Logic.I.
Qed.

Theorem plain_wrote e s input x out s' :
  polite e -> s_mech s = XPlainC -> step e s input [] = (Err x, out, s') ->
  exists z, (z = [] \/ answered PAuthzId z s s') /\
    (out = [] \/ out = z ++ [nul] \/
     exists u, answered PAuthId u s s' /\ out = z ++ nul :: u ++ [nul]).
Proof.
  intros P M H. apply run_ok in H. destruct H as (m' & w' & E & -> & ->).
  rewrite M in E. unfold mech_step, bind at 1, getl in E. apply on_eq in E. destruct E as (l' & E & ->).
  pose proof (plain_pieces e (s_trace s) P tt (mk_world [] [] (s_trace s) (s_rng s) (s_val s))) as Q.
  assert (I0 : st (s_trace s) [] all (mk_world [] [] (s_trace s) (s_rng s) (s_val s))).
  { split; [reflexivity|]. split; [reflexivity|]. exists []. rewrite app_nil_r. split; [reflexivity|exact Logic.I]. }
  specialize (Q I0). change (plain_client_step e input) with (plain_client_step e None) in E. rewrite E in Q.
  destruct Q as (z & evs & T & Z & O). exists z. unfold answered, new_events. cbn [s_trace].
  split; [destruct Z as [->|Z]; [auto|right; eauto]|].
  destruct O as [O|[O|(u & U & O)]]; auto. right; right. exists u. eauto.
Qed.

(** ** XOAUTH2 and OAUTHBEARER *)

Lemma vec_text {L V} (t : V -> list bytes) : writes_text (fun v => concat (t v))
  (fun v : V => bind (@write_all_vectored L (t v)) (fun _ => ret tt)).
Proof. intros v l w S. right. exists tt. unfold bind. rewrite write_all_vectored_full by exact S. reflexivity. Qed.
Lemma tri_true {L A} P (m : M L A) X : (forall l w, exists a l1, m l w = (Ok a, l1, w)) -> tri P m (fun _ _ => True) X.
Proof. intros H l w p. destruct (H l w) as (a & l1 & ->). exact Logic.I. Qed.

Lemma xoauth2_pieces e tr : polite e ->
  tri (st tr [] all)
    (need_with e PAuthId empty_provider (fun authid : bytes =>
        write_all_vectored [lit "user="; authid; xo_auth] ;;; ret tt) ;;;
     need_with e POAuthBearerToken empty_provider (fun token : bytes =>
        write_all_vectored [token; soh2] ;;; ret tt) ;;;
     setl OcWaiting ;;;
     ret Running) (fun _ _ => True)
    (fun w => w_out w = [] \/ exists u evs, w_trace w = tr ++ evs /\ In u (answers PAuthId evs) /\
       w_out w = lit "user=" ++ u ++ xo_auth).
Proof.
  intros P. eapply tri_bind.
  { eapply tri_post; [apply (tri_need e PAuthId _ _ (fun v : bytes => concat [lit "user="; v; xo_auth])); [exact P|exact grows_all|
      apply (vec_text (fun v : bytes => [lit "user="; v; xo_auth]))]|intros ? ? HH; exact HH|].
    intros w (_ & O & _). auto. }
  intros ?. apply tri_ex. intros u. eapply tri_bind.
  { eapply tri_post; [apply (tri_need e POAuthBearerToken _ _ (fun v : bytes => concat [v; soh2])); [exact P|apply grows_plus; exact grows_all|
      apply (vec_text (fun v : bytes => [v; soh2]))]|intros ? ? HH; exact HH|].
    intros w (_ & O & evs & T & _ & U). right. exists u, evs. split; [exact T|]. split; [exact U|].
    rewrite O. cbn [concat app]. rewrite app_nil_r. reflexivity. }
  intros ?. apply tri_true. intros l w. eexists _, _. reflexivity.
Qed.

Theorem xoauth2_wrote e s input x out s' :
  polite e -> s_mech s = XXOAuth2C OcInitial -> step e s input [] = (Err x, out, s') ->
  out = [] \/ exists u, answered PAuthId u s s' /\ out = lit "user=" ++ u ++ xo_auth.
Proof.
  intros P M H. apply run_ok in H. destruct H as (m' & w' & E & -> & ->).
  rewrite M in E. unfold mech_step, bind at 1, getl in E. apply on_eq in E. destruct E as (l' & E & ->).
  pose proof (xoauth2_pieces e (s_trace s) P OcInitial (mk_world [] [] (s_trace s) (s_rng s) (s_val s))) as Q.
  assert (I0 : st (s_trace s) [] all (mk_world [] [] (s_trace s) (s_rng s) (s_val s))).
  { split; [reflexivity|]. split; [reflexivity|]. exists []. rewrite app_nil_r. split; [reflexivity|exact Logic.I]. }
  specialize (Q I0). unfold xoauth2_client_step, bind at 1, getl in E. rewrite E in Q.
  destruct Q as [O|(u & evs & T & U & O)]; [auto|]. right. exists u. split; [|exact O]. exists evs. auto.
Qed.

Lemma kv_writes {L} kv (l : L) w : w_script w = [] ->
  ob_write_kv kv l w = (Ok tt, l, add_out (kv_text kv) w).
Proof.
  revert w. induction kv as [|[k v] r IH]; intros w S; cbn [ob_write_kv].
  - unfold ret, kv_text. cbn [map concat]. rewrite add_out_nil. reflexivity.
  - unfold bind. rewrite write_all_vectored_full by exact S. rewrite IH by exact S.
    unfold add_out, kv_text. cbn [w_out w_script w_trace w_rng w_val map concat fst snd].
    match goal with |- (_, _, mk_world ?a _ _ _ _) = (_, _, mk_world ?b _ _ _ _) =>
      enough (Q : a = b) by (rewrite Q; reflexivity) end.
    rewrite <- app_assoc. f_equal. cbn [app]. rewrite app_nil_r. rewrite <- !app_assoc. reflexivity.
Qed.

Definition bearer_shape (tr : list event) (w : world) : Prop :=
  exists z evs, w_trace w = tr ++ evs /\
    (z = [] \/ exists v, z = lit "a=" ++ v /\ In v (answers PAuthzId evs)) /\
    (w_out w = lit "n," \/
     exists kv, (kv = [] \/ In kv (answers POAuthBearerKV evs)) /\
       w_out w = lit "n," ++ z ++ lit "," ++ kv_text kv).

Lemma bearer_pieces e tr : polite e ->
  tri (st tr [] all)
    (write_all (lit "n,") ;;;
     maybe_need_with e PAuthzId empty_provider (fun authzid : bytes =>
       write_all (lit "a=") ;;; write_all authzid) ;;;
     write_all (lit ",") ;;;
     maybe_need_with e POAuthBearerKV empty_provider
       (fun kv : list (bytes * bytes) => ob_write_kv kv) ;;;
     need_with e POAuthBearerToken empty_provider (fun token : bytes =>
       write_all_vectored [xo_auth; token; soh2] ;;; ret tt) ;;;
     setl OcWaiting ;;;
     ret Running) (fun _ _ => True) (bearer_shape tr).
Proof.
  intros P. eapply tri_bind; [apply tri_write|]. intros ?. cbv beta. cbn [app].
  eapply tri_bind.
  { eapply tri_post; [apply (tri_maybe_chosen e PAuthzId _ _ (fun v : bytes => lit "a=" ++ v)); [exact P|exact grows_all|]|intros ? ? HH; exact HH|].
    - intros v l w S. right. exists tt. unfold bind. rewrite write_all_full by exact S. rewrite write_all_full by exact S.
      unfold add_out. cbn [w_out w_script w_trace w_rng w_val]. rewrite app_assoc. reflexivity.
    - intros w (_ & O & evs & T & _). exists [], evs. auto. }
  intros ?. apply tri_ex. intros z. apply tri_ex. intros F. intros l w ((G & _ & C) & H). revert l w H.
  match goal with |- forall l w, _ -> match ?m l w with _ => _ end => change (tri (st tr (lit "n," ++ z) F) m (fun _ _ => True) (bearer_shape tr)) end.
  assert (Z : forall evs, F evs -> z = [] \/ exists v, z = lit "a=" ++ v /\ In v (answers PAuthzId evs)).
  { intros evs K. destruct C as [->|[v [-> C]]]; [auto|right; eauto]. }
  eapply tri_bind; [apply tri_write|]. intros ?. cbv beta.
  eapply tri_bind.
  { eapply tri_post; [apply (tri_maybe_chosen e POAuthBearerKV _ _ kv_text); [exact P|exact G|]|intros ? ? HH; exact HH|].
    - intros v l w S. right. exists tt. apply kv_writes, S.
    - intros w (_ & O & evs & T & K). exists z, evs. split; [exact T|]. split; [auto|]. right. exists [].
      split; [auto|]. rewrite O, <- !app_assoc. reflexivity. }
  intros ?. apply tri_ex. intros k. apply tri_ex. intros F2. intros l w ((G2 & S2 & C2) & H). revert l w H.
  match goal with |- forall l w, _ -> match ?m l w with _ => _ end =>
    change (tri (st tr (((lit "n," ++ z) ++ lit ",") ++ k) F2) m (fun _ _ => True) (bearer_shape tr)) end.
  eapply tri_bind.
  { eapply tri_post; [apply (tri_need e POAuthBearerToken _ _ (fun v : bytes => concat [xo_auth; v; soh2])); [exact P|exact G2|
      apply (vec_text (fun v : bytes => [xo_auth; v; soh2]))]|intros ? ? HH; exact HH|].
    intros w (_ & O & evs & T & K). exists z, evs. split; [exact T|]. split; [auto|]. right.
    destruct C2 as [->|[kv [-> C2]]].
    - exists []. split; [auto|]. rewrite O, <- !app_assoc. reflexivity.
    - exists kv. split; [auto|]. rewrite O, <- !app_assoc. reflexivity. }
  intros ?. apply tri_true. intros l w. eexists _, _. reflexivity.
Qed.

Theorem bearer_wrote e s input x out s' :
  polite e -> s_mech s = XOAuthBearerC OcInitial -> step e s input [] = (Err x, out, s') ->
  out = lit "n," \/
  exists z kv, (z = [] \/ exists v, z = lit "a=" ++ v /\ answered PAuthzId v s s') /\
    (kv = [] \/ answered POAuthBearerKV kv s s') /\ out = lit "n," ++ z ++ lit "," ++ kv_text kv.
Proof.
  intros P M H. apply run_ok in H. destruct H as (m' & w' & E & -> & ->).
  rewrite M in E. unfold mech_step, bind at 1, getl in E. apply on_eq in E. destruct E as (l' & E & ->).
  pose proof (bearer_pieces e (s_trace s) P OcInitial (mk_world [] [] (s_trace s) (s_rng s) (s_val s))) as Q.
  assert (I0 : st (s_trace s) [] all (mk_world [] [] (s_trace s) (s_rng s) (s_val s))).
  { split; [reflexivity|]. split; [reflexivity|]. exists []. rewrite app_nil_r. split; [reflexivity|exact Logic.I]. }
  specialize (Q I0). unfold oauthbearer_client_step, bind at 1, getl in E. rewrite E in Q.
  destruct Q as (z & evs & T & Z & [O|(kv & K & O)]); [auto|]. right. exists z, kv.
  unfold answered, new_events. cbn [s_trace].
  split; [destruct Z as [->|(v & -> & V)]; [auto|right; eauto]|].
  split; [destruct K as [->|K]; [auto|right; eauto]|exact O].
Qed.

(** * A SCRAM server whose application refuses *)

Lemma final_refused {L} e vcb a d input (l : L) w v l1 w1 :
  accepting vcb ->
  handle_client_final e a d input l w = (Err (EValidation v), l1, w1) ->
  exists w2 c, handle_client_final (set_apps e (e_cb e) vcb (e_pbkdf2 e)) a d input l w = (Ok tt, l1, w2) /\
    w_out w2 = w_out w1 /\ w_trace w2 = w_trace w1 /\ w_trace w1 = w_trace w ++ [EvValidate c].
Proof.
  intros A. unfold handle_client_final.
  assert (S : forall m l w l1 w1, @send_final L m l w <> (Err (EValidation v), l1, w1)).
  { clear. intros m l w l1 w1 H. unfold send_final, bind in H.
    destruct (write_all_vectored_spec (server_final_slices m) l w) as (p & q & w' & _ & _ & [[E _]|[x E]]);
      rewrite E in H; discriminate H. }
  unfold bind at 1. unfold bind at 3. unfold scram_parse, of_res.
  destruct (client_final_parse input) as [cl|y|]; cbn [rmap_err]; [|discriminate|discriminate].
  destruct d as [d|]; [|intros H; destruct (S _ _ _ _ _ H)].
  destruct (decode (cl_cb cl)) as [cb|]; [|discriminate].
  destruct (negb _); [intros H; destruct (S _ _ _ _ _ H)|].
  destruct (strip_prefix _ _) as [rem|]; [|intros H; destruct (S _ _ _ _ _ H)].
  destruct (_ && _)%bool; [|intros H; destruct (S _ _ _ _ _ H)].
  destruct (decode_slice _ _) as [proof|]; [|discriminate].
  change (compute_signatures (set_apps e (e_cb e) vcb (e_pbkdf2 e))) with (compute_signatures e).
  set (sigs := compute_signatures e a _ _ _ _ _ _ _ _). cbv zeta.
  unfold bind at 1. unfold bind at 2. unfold exact.
  destruct (Nat.eqb _ _); [|discriminate]. unfold ret at 1. unfold ret at 1.
  change (e_hash (set_apps e (e_cb e) vcb (e_pbkdf2 e))) with (e_hash e).
  destruct (bytes_eqb _ _); [|intros H; destruct (S _ _ _ _ _ H)].
  unfold bind. intros H.
  destruct (send_final (SfVerifier (encode (snd sigs))) l w) as [[[[]|y|] l2] w2] eqn:E;
    [|injection H as -> <- <-; destruct (S _ _ _ _ _ E)|discriminate].
  unfold validate in *. cbn [set_apps e_vcb e_sd e_vtag]. rewrite A. cbn [run_validate].
  destruct (run_validate _ _ _) as [[v0|] slot]; [|discriminate].
  injection H as -> <- <-. eexists _, _. split; [reflexivity|]. split; [reflexivity|]. split; [reflexivity|].
  cbn [w_trace]. f_equal. unfold send_final, bind in E.
  destruct (write_all_vectored_spec (server_final_slices (SfVerifier (encode (snd sigs)))) l w) as (p & q & w' & _ & W & [[E' _]|[x E']]);
    rewrite E' in E; [|discriminate]. injection E as _ <-. apply (wrote_trace _ _ _ W).
Qed.

Theorem scram_refused e vcb s a d input script v out s' :
  accepting vcb -> s_mech s = XScramS a (Some (SsClientFinal d)) ->
  step e s input script = (Err (EValidation v), out, s') ->
  (exists c, new_events s s' [EvValidate c]) /\
  exists s2, step (set_apps e (e_cb e) vcb (e_pbkdf2 e)) s input script = (Ok (Finished true), out, s2) /\
    s_trace s2 = s_trace s'.
Proof.
  intros A M H. apply run_ok in H. destruct H as (m' & w' & E & -> & ->).
  unfold step, run. rewrite M in *. unfold mech_step, bind at 1, getl in E. unfold mech_step, bind at 1, getl. apply on_eq in E. destruct E as (l' & E & ->).
  unfold on, scram_server_step, bind, getl, setl in *. destruct input as [i|]; [|discriminate].
  destruct (handle_client_final e a d i None _) as [[[[]|x|] l1] w1] eqn:F; [discriminate| |discriminate].
  injection E as -> <- <-.
  destruct (final_refused e vcb a d i _ _ _ _ _ A F) as (w2 & c & F2 & O & T2 & T1). rewrite F2.
  split; [exists c; exact T1|]. unfold ret. rewrite O. eexists. split; [reflexivity|]. exact T2.
Qed.

(** * GSSAPI clients *)

Lemma gss_pending_wrote e c input l w x l1 w1 :
  polite e -> w_script w = [] -> gss_client_pending e c input l w = (Err x, l1, w1) ->
  w_out w1 = w_out w \/ exists t, e_gss_step e c input = Some (Some t) /\ w_out w1 = w_out w ++ t.
Proof.
  intros P S H. unfold gss_client_pending, gss_try, gss_err in H. unfold bind at 1 in H.
  destruct (e_gss_step e c input) as [token|]; [|left; injection H as _ _ <-; reflexivity].
  unfold ret at 1 in H. unfold bind at 1 in H.
  assert (W : exists w0, (w_out w0 = w_out w \/ exists t, token = Some t /\ w_out w0 = w_out w ++ t) /\
    (match token with Some ((_ :: _) as t) => write_all t | _ => ret tt end) l w = (Ok tt, l, w0)).
  { destruct token as [[|b t]|]; [exists w; auto| |exists w; auto].
    exists (add_out (b :: t) w). split; [right; eexists; split; reflexivity|]. apply write_all_full, S. }
  destruct W as (w0 & W & E).
  match type of H with context [match ?m l w with _ => _ end] => change (m l w) with
    ((match token with Some ((_ :: _) as t) => write_all t | _ => ret tt end) l w) in H end.
  rewrite E in H.
  assert (Q : quiet w0 w1).
  { destruct (negb _); [discriminate|].
    match type of H with ?m l w0 = _ => assert (K : keeps quiet m) by (unfold gss_check_acceptable, gss_try, gss_err; hushed);
      specialize (K l w0); rewrite H in K; exact K end. }
  destruct Q as [Q _]. rewrite Q. destruct W as [W|(t & -> & W)]; [auto|right; exists t; auto].
Qed.

Theorem gssapi_wrote e s input x out s' :
  polite e -> (exists c, s_mech s = XGssapiC (GcPending c)) \/ s_mech s = XGssapiC GcInitial ->
  step e s input [] = (Err x, out, s') ->
  out = [] \/ exists c, e_gss_step e c input = Some (Some out).
Proof.
  intros P M H. apply run_ok in H. destruct H as (m' & w' & E & -> & ->).
  unfold mech_step, bind at 1, getl in E. destruct M as [[c M]|M]; rewrite M in E;
    apply on_eq in E; destruct E as (l' & E & ->); unfold gss_client_step in E.
  - unfold bind at 1, getl at 1 in E. unfold bind at 1, setl at 1 in E.
    destruct (gss_pending_wrote _ _ _ _ _ _ _ _ P (eq_refl (w_script (mk_world [] [] (s_trace s) (s_rng s) (s_val s)))) E) as [O|(t & T & O)];
      [auto|]. right. exists c. rewrite O. exact T.
  - unfold bind at 1, getl at 1 in E. unfold bind at 1, setl at 1 in E.
    unfold bind at 1 in E.
    match type of E with context [match ?m ?l ?w with _ => _ end] =>
      assert (K : keeps quiet m) by hushed; specialize (K l w); destruct (m l w) as [[[a|y|] l1] w1] end;
      [|left; injection E as _ _ <-; apply K|discriminate].
    unfold bind at 1 in E.
    match type of E with context [match ?m ?l ?w with _ => _ end] =>
      assert (K2 : keeps quiet m) by hushed; specialize (K2 l w); destruct (m l w) as [[[[a2 a3]|y|] l2] w2] end;
      [|left; injection E as _ _ <-; rewrite (proj1 K2); apply K|discriminate].
    pose proof (fr_trans _ quiet_frame _ _ _ K K2) as Q. clear K K2.
    unfold bind at 1 in E.
    destruct (e_gss_name e a3 && e_gss_cred e)%bool; [|left; injection E as _ _ <-; apply Q].
    unfold ret at 1 in E. destruct Q as [Q [u S]]. cbn in S. symmetry in S. apply app_eq_nil in S. destruct S as [_ S].
    destruct (gss_pending_wrote _ _ _ _ _ _ _ _ P S E) as [O|(t & T & O)]; [left; rewrite O; exact Q|].
    right. exists [GInit a3]. rewrite O, Q. exact T.
Qed.
