(** What a mechanism receives from an application that always has the same answer, and clients
    with fixed credentials. *)
From Coq Require Import Lia.
From Verif Require Import Bytes BytesFacts Types World CallbackSpec WorldFacts Simple OAuth
  ScramParser Scram Gssapi Session Registry Spec_Registry Proof_Registry
  Spec_Simple Spec_OAuth Spec_ScramText Spec_Scram MonadFacts Frame Proof_Simple Proof_OAuth Proof_Scram.
Open Scope m_scope.

Definition own (q : prop) (v : pval q) (w w' : world) : Prop :=
  exists evs, w_trace w' = w_trace w ++ evs /\
    (forall c, In (EvRequest q c) evs -> In (EvAnswer q v) evs) /\
    (forall x, In (EvAnswer q x) evs -> x = v).

Section Own.
Context (e : env) (q : prop) (v : pval q) (Hp : provides e q v).

Lemma own_frame : frame (own q v).
Proof.
  split.
  - intros w. exists []. rewrite app_nil_r. split; [reflexivity|]. split; intros ? [].
  - intros a b c [e1 [T1 [H1 K1]]] [e2 [T2 [H2 K2]]]. exists (e1 ++ e2).
    split; [rewrite T2, T1, app_assoc; reflexivity|].
    split; intros x H; apply in_app_or in H; destruct H as [H|H];
      try (apply in_or_app; eauto; fail); eauto.
Qed.
Lemma own_writes : writes (own q v).
Proof.
  intros p w w' [_ [T _]]. exists []. rewrite app_nil_r. split; [exact T|]. split; intros ? [].
Qed.
Lemma own_draws : Frame.draws_ok (own q v).
Proof. intros w. exists []. rewrite app_nil_r. split; [reflexivity|]. split; intros ? []. Qed.
Lemma own_admits ev :
  match ev with EvRequest q' _ | EvAnswer q' _ => q' <> q | _ => True end -> admits (own q v) ev.
Proof.
  intros H w. exists [ev]. split; [reflexivity|].
  split; intros x [E|[]]; subst ev; congruence.
Qed.
Lemma own_asks q' : q' <> q -> asks (own q v) q'.
Proof. intros H. repeat split; intros; apply own_admits; auto. Qed.

Lemma own_maybe {L G} q' c (f : pval q' -> M L G) :
  (forall x, keeps (own q v) (f x)) -> keeps (own q v) (maybe_need_with e q' c f).
Proof.
  intros Hf. destruct (prop_eq_dec q' q) as [->|N].
  - intros l w. destruct (maybe_need_with_provides e q v c f l w Hp) as [cs [Hcs ->]].
    specialize (Hf v l (add_events (EvRequest q c :: cs ++ [EvAnswer q v]) w)).
    destruct (f v l _) as [[r l1] w1]. eapply fr_trans; [apply own_frame| |exact Hf].
    exists (EvRequest q c :: cs ++ [EvAnswer q v]). split; [reflexivity|]. split.
    + intros _ _. right. apply in_or_app. right. left. reflexivity.
    + intros x [H|H]; [discriminate|]. apply in_app_or in H. destruct H as [H|[H|[]]].
      * unfold only_closures in Hcs. rewrite Forall_forall in Hcs. destruct (Hcs _ H).
      * injection H as H. apply (Eqdep_dec.inj_pair2_eq_dec _ prop_eq_dec) in H. auto.
  - apply (keeps_maybe_need_with _ own_frame); [apply own_asks; exact N|exact Hf].
Qed.
Lemma own_need {L G} q' c (f : pval q' -> M L G) :
  (forall x, keeps (own q v) (f x)) -> keeps (own q v) (need_with e q' c f).
Proof.
  intros Hf. unfold need_with. apply (keeps_bind _ own_frame); [apply own_maybe; assumption|].
  intros [g|]; [apply (keeps_ret _ own_frame)|apply (keeps_fail _ own_frame)].
Qed.
Lemma own_maybe_cb {L G} name c (f : bytes -> M L G) :
  (forall x, keeps (own q v) (f x)) -> keeps (own q v) (maybe_need_cb_data e name c f).
Proof.
  intros Hf. unfold maybe_need_cb_data. apply (keeps_bind _ own_frame).
  - apply keeps_log. apply own_admits. exact I.
  - intros _. destruct (e_chan e name).
    + apply (keeps_bind _ own_frame); [apply Hf|]. intros; apply (keeps_ret _ own_frame).
    + apply own_maybe. exact Hf.
Qed.
Lemma own_need_cb {L G} name c (f : bytes -> M L G) :
  (forall x, keeps (own q v) (f x)) -> keeps (own q v) (need_cb_data e name c f).
Proof.
  intros Hf. unfold need_cb_data. apply (keeps_bind _ own_frame); [apply own_maybe_cb; assumption|].
  intros [g|]; [apply (keeps_ret _ own_frame)|apply (keeps_fail _ own_frame)].
Qed.
Lemma own_validate {L} c : keeps (own q v) (@validate L e c).
Proof.
  intros l w. unfold validate.
  destruct (run_validate (e_vtag e) (e_vcb e (w_trace w) (e_sd e) c) (w_val w)) as [r slot].
  assert (H : own q v w (mk_world (w_out w) (w_script w) (w_trace w ++ [EvValidate c])
                       (w_rng w) slot)).
  { exists [EvValidate c]. split; [reflexivity|]. split; intros x [H|[]]; discriminate. }
  destruct r; exact H.
Qed.

Lemma step_own input : keeps (own q v) (mech_step e input).
Proof.
  pose proof own_frame as F. unfold mech_step.
  apply (keeps_bind _ F); [apply (keeps_getl _ F)|]. intros m.
  destruct m; unfold_steps;
  repeat lazymatch goal with
  | |- keeps _ (need_with _ _ _ _) => apply own_need; intros ?
  | |- keeps _ (maybe_need_with _ _ _ _) => apply own_maybe; intros ?
  | |- keeps _ (need_cb_data _ _ _ _) => apply own_need_cb; intros ?
  | |- keeps _ (maybe_need_cb_data _ _ _ _) => apply own_maybe_cb; intros ?
  | |- keeps _ (validate _ _) => apply own_validate
  | |- writes _ => apply own_writes
  | |- Frame.draws_ok _ => apply own_draws
  | |- admits _ _ => apply own_admits; exact I
  | |- keeps _ _ => keep_step F
  end.
Qed.
End Own.

Lemma in_answers q x evs : In x (answers q evs) -> In (EvAnswer q x) evs.
Proof.
  induction evs as [|ev evs IH]; cbn [answers]; [auto|].
  destruct ev; try (intros H; right; apply IH; exact H).
  unfold castp. destruct (prop_eq_dec p q) as [E|N].
  - subst p. cbn. intros [->|H]; [left; reflexivity|right; apply IH; exact H].
  - intros H; right; apply IH; exact H.
Qed.
Lemma answers_in q x evs : In (EvAnswer q x) evs -> In x (answers q evs).
Proof.
  induction evs as [|ev evs IH]; [auto|]. intros [->|H].
  - cbn [answers]. rewrite castp_refl. left. reflexivity.
  - cbn [answers]. destruct ev; auto. destruct (castp v); [right|]; auto.
Qed.

Theorem provided_received e s input script r out s' q v :
  provides e q v -> step e s input script = (r, out, s') ->
  exists evs, new_events s s' evs /\ (forall x, In x (answers q evs) -> x = v) /\
    (In q (asked evs) -> In v (answers q evs) \/ exists c x, In (EvAction q x c) evs).
Proof.
  intros Hp H. unfold step in H. apply run_ok in H. destruct H as [m' [w' [H [-> ->]]]].
  pose proof (step_own e q v Hp input (s_mech s) (mk_world [] script (s_trace s) (s_rng s) (s_val s))) as K.
  rewrite H in K. destruct K as [evs [T [K1 K2]]]. exists evs. split; [exact T|].
  split; [intros x Hx; apply K2, in_answers; exact Hx|].
  intros Ha. assert (Hq : (exists c, In (EvRequest q c) evs) \/ exists c x, In (EvAction q x c) evs).
  { clear -Ha. induction evs as [|ev evs IH]; [destruct Ha|].
    assert (G : In q (asked evs) -> (exists c, In (EvRequest q c) (ev :: evs)) \/
       exists c x, In (EvAction q x c) (ev :: evs)).
    { intros H. destruct (IH H) as [[c Hc]|[c [x Hc]]];
        [left; exists c; right; exact Hc|right; exists c, x; right; exact Hc]. }
    destruct ev; cbn [asked] in Ha; auto.
    - destruct Ha as [->|Ha]; [|auto]. left. eexists. left. reflexivity.
    - destruct Ha as [->|Ha]; [|auto]. right. do 2 eexists. left. reflexivity. }
  destruct Hq as [[c Hc]|Hq]; [left; apply answers_in, (K1 c); exact Hc|right; exact Hq].
Qed.

Lemma provided_answered e s input script r out s' q v evs c :
  provides e q v -> step e s input script = (r, out, s') -> new_events s s' evs ->
  In (EvRequest q c) evs -> In v (answers q evs).
Proof.
  intros Hp H Hn Hi. unfold step in H. apply run_ok in H. destruct H as [m' [w' [H [-> ->]]]].
  pose proof (step_own e q v Hp input (s_mech s) (mk_world [] script (s_trace s) (s_rng s) (s_val s))) as K.
  rewrite H in K. destruct K as [evs' [T [K1 K2]]]. unfold new_events in Hn. cbn [s_trace w_trace] in *.
  rewrite T in Hn. apply app_inv_head in Hn. subst evs'. eapply answers_in, K1; eauto.
Qed.
Lemma provided_same e s input script r out s' q v evs x :
  provides e q v -> step e s input script = (r, out, s') -> new_events s s' evs ->
  In x (answers q evs) -> x = v.
Proof.
  intros Hp H Hn Hi. destruct (provided_received _ _ _ _ _ _ _ _ _ Hp H) as [evs' [Hn' [K _]]].
  unfold new_events in *. rewrite Hn in Hn'. apply app_inv_head in Hn'. subst evs'. auto.
Qed.

(** The trace only grows. *)
Definition grows (w w' : world) : Prop := exists evs, w_trace w' = w_trace w ++ evs.
Lemma ext_grows w w' : ext w w' -> grows w w'.
Proof. intros [evs [_ [T _]]]. exists evs. exact T. Qed.

Lemma maybe_asks {L G} e q c (f : pval q -> M L G) l w r l' w' :
  (forall v, keeps ext (f v)) -> maybe_need_with e q c f l w = (r, l', w') ->
  exists rest, w_trace w' = w_trace w ++ EvRequest q c :: rest.
Proof.
  intros Hf H. apply maybe_need_with_inv in H.
  assert (K : forall v cs r0 l1 w1, f v l (add_events (EvRequest q c :: cs ++ [EvAnswer q v]) w) = (r0, l1, w1) ->
    exists rest, w_trace w1 = w_trace w ++ EvRequest q c :: rest).
  { intros v cs r0 l1 w1 E. specialize (Hf v l (add_events (EvRequest q c :: cs ++ [EvAnswer q v]) w)).
    rewrite E in Hf. destruct Hf as [evs [_ [T _]]]. rewrite T. cbn [add_events w_trace].
    rewrite <- app_assoc. eexists. reflexivity. }
  destruct H as [cs r Hcs _|v cs1 cs2 g r l1 w1 Hc1 Hc2 E _|v cs1 cs2 x r l1 w1 Hc1 Hc2 E _
                |v cs1 l1 w1 Hc1 E].
  - eexists. reflexivity.
  - destruct (K _ _ _ _ _ E) as [rest T]. cbn [add_events w_trace]. rewrite T, <- app_assoc.
    eexists. reflexivity.
  - destruct (K _ _ _ _ _ E) as [rest T]. cbn [add_events w_trace]. rewrite T, <- app_assoc.
    eexists. reflexivity.
  - exact (K _ _ _ _ _ E).
Qed.

Lemma scram_asks_authzid e s a plus input script st msg s' evs :
  s_mech s = XScramC a (Some (ScInitial plus)) ->
  step e s input script = (Ok st, msg, s') -> new_events s s' evs ->
  In (EvRequest PAuthzId empty_provider) evs.
Proof.
  intros Em H Hn. apply (step_scram_client _ _ _ _ _ _ _ _ _ Em) in H.
  destruct H as [st1 [w' [H [-> ->]]]]. apply client_step1 in H.
  destruct H as [ws [cl [H [-> ->]]]]. rewrite send_client_first_eq in H.
  inv_bind H. apply cbflag_any in H0. destruct H0 as [evs1 [[T1 _] _]].
  unfold bind at 1 in H. rewrite push_ok in H. inv_bind H.
  apply maybe_asks in H0.
  2:{ intros v. unfold authzid_consumer, push_gs2, esc. pose proof ext_frame as F.
      repeat keep_step F. }
  destruct H0 as [rest T2].
  assert (T3 : grows w0 w').
  { apply ext_grows. pose proof ext_frame as F.
    assert (K : keeps ext (scf_user e)).
    { unfold scf_user, push_gs2, esc, generate_nonce.
      repeat (first [keep_step F | apply ext_asks | apply ext_writes | apply ext_draws]). }
    specialize (K l0 w0). rewrite H in K. exact K. }
  destruct T3 as [e3 T3]. unfold new_events in Hn. cbn [s_trace w_trace] in *.
  rewrite T3, T2, T1, <- !app_assoc in Hn. apply app_inv_head in Hn. subst evs.
  apply in_or_app. right. left. reflexivity.
Qed.
Lemma plain_asks_authzid e s input script st msg s' evs :
  s_mech s = XPlainC -> step e s input script = (Ok st, msg, s') -> new_events s s' evs ->
  In (EvRequest PAuthzId empty_provider) evs.
Proof.
  intros Hm H Hn. destruct (plain_step_inv _ _ _ _ _ _ _ Hm H) as [l [w' [H0 [-> ->]]]].
  pose proof ext_frame as F.
  unfold plain_client_step in H0. inv_bind H0. apply maybe_asks in H1.
  2:{ intros v. repeat (first [keep_step F | apply ext_writes]). }
  destruct H1 as [rest T1].
  assert (T2 : grows w w').
  { apply ext_grows. match type of H0 with ?m _ _ = _ => assert (K : keeps ext m) end.
    { repeat (first [keep_step F | apply ext_asks | apply ext_writes]). }
    specialize (K l0 w). rewrite H0 in K. exact K. }
  destruct T2 as [e3 T2]. unfold new_events in Hn. cbn [s_trace w_trace] in *.
  rewrite T2, T1, <- !app_assoc in Hn. apply app_inv_head in Hn. subst evs. left. reflexivity.
Qed.

(** * Fixed credentials *)

Section Credentials.
Context (e : env) (z : option bytes) (a p : bytes)
  (Hcb : forall tr c k, e_cb e tr (e_sd e) c k = credentials_cb z a p).

Lemma cred_bubbling : bubbling (credentials_cb z a p).
Proof. unfold credentials_cb. destruct z; cbn; auto. Qed.
Lemma cred_polite : polite e.
Proof. intros tr c k. rewrite Hcb. apply cred_bubbling. Qed.
Lemma cred_authid : provides e PAuthId a.
Proof. intros tr c. rewrite Hcb. split; [apply cred_bubbling|reflexivity]. Qed.
Lemma cred_password : provides e PPassword p.
Proof. intros tr c. rewrite Hcb. split; [apply cred_bubbling|reflexivity]. Qed.
Lemma cred_authzid z' : z = Some z' -> provides e PAuthzId z'.
Proof.
  intros E tr c. rewrite Hcb. split; [apply cred_bubbling|]. rewrite E. reflexivity.
Qed.
Lemma cred_no_authzid : z = None -> withholds e PAuthzId.
Proof.
  intros E tr c. rewrite Hcb. split; [apply cred_bubbling|]. left. rewrite E. reflexivity.
Qed.

Lemma one_in {A} (x y : A) l : In x l -> l = [y] -> x = y.
Proof. intros H ->. destruct H as [H|[]]; auto. Qed.

Lemma cred_plain s input script st msg s' z' :
  z = Some z' -> s_mech s = XPlainC -> step e s input script = (Ok st, msg, s') ->
  msg = plain_message z' a p.
Proof.
  intros Ez Em H. destruct (plain_client_polite _ _ _ _ _ _ _ Em cred_polite H)
    as [evs [z1 [a1 [p1 [Hn [_ [-> [_ [_ [_ [_ [_ [Aa [Ap Az]]]]]]]]]]]]]].
  assert (a1 = a) as ->.
  { apply (provided_same _ _ _ _ _ _ _ _ _ _ _ cred_authid H Hn). rewrite Aa. left. reflexivity. }
  assert (p1 = p) as ->.
  { apply (provided_same _ _ _ _ _ _ _ _ _ _ _ cred_password H Hn). rewrite Ap. left. reflexivity. }
  pose proof (provided_answered _ _ _ _ _ _ _ _ _ _ _ (cred_authzid _ Ez) H Hn
    (plain_asks_authzid _ _ _ _ _ _ _ _ Em H Hn)) as Hi.
  destruct Az as [Az|[Az _]]; rewrite Az in Hi; [|destruct Hi].
  destruct Hi as [->|[]]. reflexivity.
Qed.

Lemma cred_scram s al plus input script st msg s' z' :
  z = Some z' -> s_mech s = XScramC al (Some (ScInitial plus)) -> no_zero script ->
  step e s input script = (Ok st, msg, s') ->
  exists f zesc aesc, flag_for plus f /\ escape z' = Ok zesc /\ escape a = Ok aesc /\
    msg = gs2_text f (Some zesc) ++ first_bare aesc (nonce_from e (s_rng s)).
Proof.
  intros Ez Em Hz H. destruct (client_first_polite _ _ _ _ _ _ _ _ _ Em cred_polite Hz H)
    as [evs [f [z1 [zesc [data [user [uesc [Hn [_ [Hm [_ [_ [_ [_ [Au [Eu [Az [Ee [Hf _]]]]]]]]]]]]]]]]]]].
  assert (user = a) as ->.
  { apply (provided_same _ _ _ _ _ _ _ _ _ _ _ cred_authid H Hn). rewrite Au. left. reflexivity. }
  pose proof (provided_answered _ _ _ _ _ _ _ _ _ _ _ (cred_authzid _ Ez) H Hn
    (scram_asks_authzid _ _ _ _ _ _ _ _ _ _ Em H Hn)) as Hi.
  destruct z1 as [z1|]; cbn [answered] in Az; rewrite Az in Hi; [|destruct Hi].
  destruct Hi as [->|[]].
  destruct zesc as [zesc|]; [|destruct Ee].
  exists f, zesc, uesc. auto.
Qed.
End Credentials.

Theorem authzid_sent_always e z a p cb prefer offered i m s input script st msg s' :
  (forall tr c k, e_cb e tr (e_sd e) c k = credentials_cb (Some z) a p) ->
  client_start (credentials_registry true) cb prefer offered = Ok (i, m) ->
  i = Builtin (s_mech s) -> no_zero script ->
  step e s input script = (Ok st, msg, s') ->
  carries i z a p msg.
Proof.
  intros Hcb Hs Ei Hz H. apply start_inv in Hs. destruct Hs as [Hin [_ [Hfc _]]].
  assert (Hm : s_mech s = XPlainC \/ exists al plus, s_mech s = XScramC al (Some (ScInitial plus))).
  { rewrite Ei in Hfc. cbn in Hin. destruct Hin as [E|[E|[E|[E|[]]]]]; subst m;
      inversion Hfc; eauto. }
  rewrite Ei. destruct Hm as [Hm|[al [plus Hm]]]; rewrite Hm.
  - left. split; [reflexivity|]. eapply cred_plain; eauto.
  - right. destruct (cred_scram _ _ _ _ Hcb _ _ _ _ _ _ _ _ _ eq_refl Hm Hz H)
      as [f [zesc [aesc [Hf [Ez [Ea Em]]]]]].
    do 6 eexists. split; [reflexivity|]. eauto.
Qed.

Theorem login_without_authzid b cb prefer offered i :
  client_start (credentials_registry b) cb prefer offered = Ok (i, DLogin) -> b = false.
Proof.
  intros Hs. apply start_inv in Hs. destruct Hs as [Hin _].
  destruct b; [|reflexivity]. cbn in Hin.
  repeat (destruct Hin as [E|Hin]; [discriminate|]). destruct Hin.
Qed.
