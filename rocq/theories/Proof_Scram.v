(** Lemmas about SCRAM exchanges. *)
From Coq Require Import Lia.
From Verif Require Import Bytes BytesFacts Utf8 Types World CallbackSpec WorldFacts Base64
  Base64Facts Num NumFacts Simple OAuth ScramParser Scram Gssapi Session
  Spec_Simple Spec_OAuth Spec_ScramText Spec_Scram MonadFacts Frame Proof_Simple Proof_OAuth
  Proof_ScramText Spec_Wire Proof_Wire.
Open Scope m_scope.

(** * Requests whose consumers only work on local variables *)

Definition worldless {L A} (m : M L A) : Prop := forall l w, snd (m l w) = w.

Definition others_silent (q : prop) (evs : list event) : Prop :=
  (forall q', q' <> q -> answers q' evs = []) /\ validations evs = [].

Lemma request_silent q c cs1 v cs2 : only_closures cs1 -> only_closures cs2 ->
  others_silent q ((EvRequest q c :: cs1 ++ [EvAnswer q v]) ++ cs2).
Proof.
  intros H1 H2. split.
  - intros q' N. rewrite request_answers by assumption. apply answers_other. congruence.
  - apply request_validations; assumption.
Qed.
Lemma ignored_silent q c cs : only_closures cs ->
  others_silent q (EvRequest q c :: cs) /\ answers q (EvRequest q c :: cs) = [].
Proof.
  intros H. split; [split|]; intros; cbn; try (apply answers_closures; assumption).
  apply validations_closures; assumption.
Qed.

Lemma request_asked q c cs1 v cs2 : only_closures cs1 -> only_closures cs2 ->
  asked ((EvRequest q c :: cs1 ++ [EvAnswer q v]) ++ cs2) = [q].
Proof.
  intros H1 H2. cbn. rewrite !asked_app, (asked_closures cs1 H1), (asked_closures cs2 H2).
  reflexivity.
Qed.

Lemma request_did0 q c cs1 v cs2 w :
  did ((EvRequest q c :: cs1 ++ [EvAnswer q v]) ++ cs2) [] 0 w
    (add_events cs2 (add_events (EvRequest q c :: cs1 ++ [EvAnswer q v]) w)).
Proof. rewrite add_events_app. apply did_events. Qed.

Lemma maybe_local {L G} e q c (f : pval q -> M L G) l w o l' w' :
  (forall v, worldless (f v)) ->
  maybe_need_with e q c f l w = (Ok o, l', w') ->
  exists evs, did evs [] 0 w w' /\ others_silent q evs /\ asked evs = [q] /\
    ((o = None /\ l' = l /\ answers q evs = []) \/
     (exists v r w0, answers q evs = [v] /\ f v l w0 = (r, l', w0) /\ r <> Panic /\
        forall g, o = Some g -> r = Ok g)).
Proof.
  intros Hf H. apply maybe_need_with_ok in H.
  destruct H as [[-> [-> [cs [Hc ->]]]]|[v [cs1 [cs2 [w1 [r [H1 [H2 [Hfv [-> [Hp Hg]]]]]]]]]]].
  - exists (EvRequest q c :: cs). destruct (ignored_silent q c cs Hc) as [Hs Ha].
    split; [apply did_events|]. split; [exact Hs|]. split; [cbn; rewrite asked_closures; auto|]. auto.
  - pose proof (Hf v l (add_events (EvRequest q c :: cs1 ++ [EvAnswer q v]) w)) as E.
    rewrite Hfv in E. cbn [snd] in E. subst w1.
    exists ((EvRequest q c :: cs1 ++ [EvAnswer q v]) ++ cs2).
    split; [apply request_did0|]. split; [apply request_silent; assumption|].
    split; [apply request_asked; assumption|].
    right. exists v, r, (add_events (EvRequest q c :: cs1 ++ [EvAnswer q v]) w).
    rewrite request_answers by assumption. rewrite answers_answer. auto.
Qed.

Lemma maybe_local_polite {L G} e q c (f : pval q -> M L G) l w o l' w' :
  bubbling (e_cb e (w_trace w) (e_sd e) c (RSatisfy q)) ->
  (forall v, worldless (f v)) ->
  maybe_need_with e q c f l w = (Ok o, l', w') ->
  exists evs, did evs [] 0 w w' /\ others_silent q evs /\
    ((o = None /\ l' = l /\ answers q evs = []) \/
     (exists v r w0, answers q evs = [v] /\ f v l w0 = (r, l', w0) /\ polite_result r = Ok o)).
Proof.
  intros Hb Hf H. apply maybe_need_with_polite in H; [|exact Hb].
  destruct H as [[-> [-> [cs [Hc ->]]]]|[v [cs [r [H1 [_ [Hfv Hr]]]]]]].
  - exists (EvRequest q c :: cs). destruct (ignored_silent q c cs Hc) as [Hs Ha].
    split; [apply did_events|]. auto.
  - pose proof (Hf v l (add_events (EvRequest q c :: cs ++ [EvAnswer q v]) w)) as E.
    rewrite Hfv in E. cbn [snd] in E. subst w'.
    exists ((EvRequest q c :: cs ++ [EvAnswer q v]) ++ []).
    assert (Hn : only_closures []) by constructor.
    split; [rewrite app_nil_r; apply did_events|]. split; [apply request_silent; assumption|].
    right. exists v, r, (add_events (EvRequest q c :: cs ++ [EvAnswer q v]) w).
    rewrite request_answers by assumption. rewrite answers_answer. auto.
Qed.

Lemma need_local {L G} e q c (f : pval q -> M L G) l w g l' w' :
  (forall v, worldless (f v)) ->
  need_with e q c f l w = (Ok g, l', w') ->
  exists evs v w0, did evs [] 0 w w' /\ others_silent q evs /\ asked evs = [q] /\
    answers q evs = [v] /\ f v l w0 = (Ok g, l', w0).
Proof.
  intros Hf H. apply need_with_ok in H. destruct H as [v [cs1 [cs2 [w1 [H1 [H2 [Hfv ->]]]]]]].
  pose proof (Hf v l (add_events (EvRequest q c :: cs1 ++ [EvAnswer q v]) w)) as E.
  rewrite Hfv in E. cbn [snd] in E. subst w1.
  exists ((EvRequest q c :: cs1 ++ [EvAnswer q v]) ++ cs2), v,
    (add_events (EvRequest q c :: cs1 ++ [EvAnswer q v]) w).
  split; [apply request_did0|]. split; [apply request_silent; assumption|].
  split; [apply request_asked; assumption|].
  rewrite request_answers by assumption. rewrite answers_answer. auto.
Qed.

Lemma silent_chan q name evs : others_silent q evs -> others_silent q (EvChan name :: evs).
Proof. intros [H1 H2]. split; [intros q' N; cbn; auto|exact H2]. Qed.

Lemma did_chan name evs p n w w' :
  did evs p n (add_events [EvChan name] w) w' -> did (EvChan name :: evs) p n w w'.
Proof.
  intros H. rewrite <- (Nat.add_0_r n).
  exact (did_trans [EvChan name] evs [] p 0 n _ _ _ (did_events _ w) H).
Qed.

Lemma maybe_cb_local {L G} e name c (f : bytes -> M L G) l w o l' w' :
  (forall v, worldless (f v)) ->
  maybe_need_cb_data e name c f l w = (Ok o, l', w') ->
  exists evs, did evs [] 0 w w' /\ others_silent PChannelBindings evs /\
    ((o = None /\ l' = l /\ e_chan e name = None /\ answers PChannelBindings evs = []) \/
     (exists d r w0, cb_source e evs name d /\ f d l w0 = (r, l', w0) /\ r <> Panic /\
        forall g, o = Some g -> r = Ok g)).
Proof.
  intros Hf H. unfold maybe_need_cb_data, bind, log in H. rewrite add_event_events in H.
  destruct (e_chan e name) as [d|] eqn:Ec.
  - destruct (f d l (add_events [EvChan name] w)) as [[r l1] w1] eqn:Ef.
    pose proof (Hf d l (add_events [EvChan name] w)) as E. rewrite Ef in E. cbn [snd] in E.
    subst w1. destruct r as [g|x|]; try discriminate. injection H as <- <- <-.
    exists [EvChan name]. split; [apply did_events|]. split; [split; reflexivity|].
    right. exists d, (Ok g), (add_events [EvChan name] w). split; [left; exact Ec|].
    split; [exact Ef|]. split; [discriminate|]. congruence.
  - apply maybe_local in H; [|exact Hf]. destruct H as [evs [Hd [Hs [_ H]]]].
    exists (EvChan name :: evs). split; [apply did_chan; exact Hd|].
    split; [apply silent_chan; exact Hs|].
    destruct H as [[-> [-> Ha]]|[v [r [w0 [Ha H]]]]]; [left; auto|].
    right. exists v, r, w0. split; [right; auto|exact H].
Qed.

Lemma maybe_cb_local_polite {L G} e name c (f : bytes -> M L G) l w o l' w' :
  polite e -> (forall v, worldless (f v)) ->
  maybe_need_cb_data e name c f l w = (Ok o, l', w') ->
  exists evs, did evs [] 0 w w' /\ others_silent PChannelBindings evs /\
    ((o = None /\ l' = l /\ e_chan e name = None /\ answers PChannelBindings evs = []) \/
     (exists d r w0, cb_source e evs name d /\ f d l w0 = (r, l', w0) /\ polite_result r = Ok o)).
Proof.
  intros Hp Hf H. unfold maybe_need_cb_data, bind, log in H. rewrite add_event_events in H.
  destruct (e_chan e name) as [d|] eqn:Ec.
  - destruct (f d l (add_events [EvChan name] w)) as [[r l1] w1] eqn:Ef.
    pose proof (Hf d l (add_events [EvChan name] w)) as E. rewrite Ef in E. cbn [snd] in E.
    subst w1. destruct r as [g|x|]; try discriminate. injection H as <- <- <-.
    exists [EvChan name]. split; [apply did_events|]. split; [split; reflexivity|].
    right. exists d, (Ok g), (add_events [EvChan name] w). split; [left; exact Ec|].
    split; [exact Ef|]. reflexivity.
  - apply maybe_local_polite in H; [|apply Hp|exact Hf]. destruct H as [evs [Hd [Hs H]]].
    exists (EvChan name :: evs). split; [apply did_chan; exact Hd|].
    split; [apply silent_chan; exact Hs|].
    destruct H as [[-> [-> Ha]]|[v [r [w0 [Ha H]]]]]; [left; auto|].
    right. exists v, r, w0. split; [right; auto|exact H].
Qed.

Lemma need_cb_local {L G} e name c (f : bytes -> M L G) l w g l' w' :
  (forall v, worldless (f v)) ->
  need_cb_data e name c f l w = (Ok g, l', w') ->
  exists evs d w0, did evs [] 0 w w' /\ others_silent PChannelBindings evs /\
    cb_source e evs name d /\ f d l w0 = (Ok g, l', w0).
Proof.
  intros Hf H. unfold need_cb_data in H. inv_bind H.
  destruct a as [g'|]; [|discriminate]. injection H as <- <- <-.
  apply maybe_cb_local in H0; [|exact Hf]. destruct H0 as [evs [Hd [Hs [[H _]|H]]]]; [discriminate|].
  destruct H as [d [r [w1 [Hc [Ef [_ Hg]]]]]]. exists evs, d, w1.
  rewrite (Hg _ eq_refl) in Ef. auto.
Qed.

(** * Nonces *)

Lemma draws_ok {L} e n : forall (l : L) w,
  draws e n l w = (Ok (map (e_rng e) (seq (w_rng w) n)), l,
    mk_world (w_out w) (w_script w) (w_trace w) (n + w_rng w) (w_val w)).
Proof.
  induction n as [|n IH]; intros l w; [destruct w; reflexivity|].
  cbn [draws]. unfold bind at 1, draw. unfold bind. rewrite IH. cbn.
  rewrite Nat.add_succ_r. reflexivity.
Qed.

Lemma nonce_ok {L} e (l : L) w :
  generate_nonce e l w = (Ok (nonce_from e (w_rng w)), l,
    mk_world (w_out w) (w_script w) (w_trace w) (24 + w_rng w) (w_val w)).
Proof.
  unfold generate_nonce, nonce_len, bind. rewrite draws_ok. unfold ret, nonce_from.
  rewrite map_map. reflexivity.
Qed.

Lemma did_draws n w :
  did [] [] n w (mk_world (w_out w) (w_script w) (w_trace w) (n + w_rng w) (w_val w)).
Proof. unfold did. cbn. rewrite !app_nil_r. repeat split. apply script_left_refl. Qed.

Lemma printable_legal : legal_nonce printable.
Proof.
  apply nonce_legal. vm_compute. reflexivity.
Qed.
Lemma pick_printable n : In (pick n) printable.
Proof.
  unfold pick. apply nth_In. assert (length printable = 88) as E by reflexivity.
  pose proof (N.mod_lt n (N.of_nat (length printable))) as H. rewrite E in *. lia.
Qed.
Lemma nonce_from_legal e n : legal_nonce (nonce_from e n) /\ length (nonce_from e n) = 24.
Proof.
  split.
  - unfold nonce_from. apply Forall_map, Forall_forall. intros k _.
    pose proof printable_legal as H. unfold legal_nonce in H. rewrite Forall_forall in H.
    apply H, pick_printable.
  - unfold nonce_from. rewrite map_length, seq_length. reflexivity.
Qed.
(** * The client's first message *)

Lemma push_ok x (l : cf_locals) w : push_gs2 x l w = (Ok tt, (fst l ++ x, snd l), w).
Proof. reflexivity. Qed.
Lemma set_ok d (l : cf_locals) w : set_cbdata d l w = (Ok tt, (fst l, Some d), w).
Proof. reflexivity. Qed.

(** No answers for properties other than those about channel binding. *)
Definition binding_only (evs : list event) : Prop :=
  (forall q, q <> POverrideCBType -> q <> PChannelBindings -> answers q evs = []) /\
  validations evs = [].
Lemma binding_only_app a b : binding_only a -> binding_only b -> binding_only (a ++ b).
Proof.
  intros [A1 A2] [B1 B2]. split.
  - intros q N1 N2. rewrite answers_app, A1, B1 by assumption. reflexivity.
  - rewrite validations_app, A2, B2. reflexivity.
Qed.
Lemma binding_only_override evs : others_silent POverrideCBType evs -> binding_only evs.
Proof. intros [H1 H2]. split; auto. Qed.
Lemma binding_only_data evs : others_silent PChannelBindings evs -> binding_only evs.
Proof. intros [H1 H2]. split; auto. Qed.

Lemma did_then {e1 e2 w0 w1 w2} : did e1 [] 0 w0 w1 -> did e2 [] 0 w1 w2 ->
  did (e1 ++ e2) [] 0 w0 w2.
Proof. intros H1 H2. exact (did_trans _ _ _ _ _ _ _ _ _ H1 H2). Qed.

Lemma cbflag_any e plus h0 w u l' w' :
  client_cbflag e plus (h0, None) w = (Ok u, l', w') ->
  exists evs, did evs [] 0 w w' /\ binding_only evs /\
    match plus with
    | ClientNoSupport => l' = (h0 ++ lit "n", None) /\ evs = []
    | ServerNoSupport => l' = (h0 ++ lit "y", None) /\ evs = []
    | Supported => exists x d, l' = (h0 ++ lit "p=" ++ x, Some d)
    end.
Proof.
  destruct plus; unfold client_cbflag.
  1-2: rewrite push_ok; intros [= <- <- <-]; exists []; split; [apply did_refl|];
    split; [split; reflexivity|]; split; reflexivity.
  unfold bind at 1. rewrite push_ok. cbn [fst snd]. intros H. inv_bind H.
  apply maybe_local in H0; [|intros v l1 w1; reflexivity].
  destruct H0 as [evs1 [Hd1 [Hs1 [_ H0]]]]. apply binding_only_override in Hs1.
  assert (Hl : exists y, l = (h0 ++ lit "p=" ++ y, None)).
  { destruct H0 as [[_ [-> _]]|[v [r [w1 [_ [Hf _]]]]]].
    - exists []. rewrite app_nil_r. reflexivity.
    - unfold bind in Hf. rewrite push_ok in Hf. injection Hf as _ <-.
      exists v. cbn [fst snd]. rewrite <- app_assoc. reflexivity. }
  destruct Hl as [y ->]. clear H0. destruct a as [name|].
  - apply need_cb_local in H; [|intros v l1 w1; reflexivity].
    destruct H as [evs2 [d [w1 [Hd2 [Hs2 [_ Hf]]]]]]. rewrite set_ok in Hf.
    injection Hf as <- <-. exists (evs1 ++ evs2). split; [exact (did_then Hd1 Hd2)|].
    split; [apply binding_only_app; [exact Hs1|apply binding_only_data; exact Hs2]|].
    exists y, d. reflexivity.
  - inv_bind H. apply maybe_cb_local in H0; [|intros v l1 w2; reflexivity].
    destruct H0 as [evs2 [Hd2 [Hs2 H0]]].
    assert (Hb : binding_only (evs1 ++ evs2))
      by (apply binding_only_app; [exact Hs1|apply binding_only_data; exact Hs2]).
    pose proof (did_then Hd1 Hd2) as Hd. clear Hd1 Hd2 Hs1 Hs2.
    assert (Hl : l = (h0 ++ lit "p=" ++ y, None) /\ a = None \/
                 exists z d, l = (h0 ++ lit "p=" ++ z, Some d)).
    { destruct H0 as [[-> [-> _]]|[v [r [w2 [_ [Hf _]]]]]]; [left; auto|right].
      unfold bind in Hf. rewrite push_ok, set_ok in Hf. injection Hf as _ <-.
      exists (y ++ lit "tls-exporter"), v. cbn [fst snd].
      rewrite <- !app_assoc. reflexivity. }
    clear H0. destruct a as [t|].
    + injection H as <- <- <-. destruct Hl as [[_ Hl]|Hl]; [discriminate|].
      exists (evs1 ++ evs2). split; [exact Hd|]. split; [exact Hb|exact Hl].
    + apply need_cb_local in H; [|intros v l1 w2; reflexivity].
      destruct H as [evs3 [d [w2 [Hd3 [Hs3 [_ Hf]]]]]].
      unfold bind in Hf. rewrite push_ok, set_ok in Hf. injection Hf as <- <-.
      exists ((evs1 ++ evs2) ++ evs3). split; [exact (did_then Hd Hd3)|].
      split; [apply binding_only_app; [exact Hb|apply binding_only_data; exact Hs3]|].
      cbn [fst snd]. destruct Hl as [[-> _]|[z [d' ->]]]; cbn [fst].
      * exists (y ++ lit "tls-unique"), d. rewrite <- !app_assoc. reflexivity.
      * exists (z ++ lit "tls-unique"), d. rewrite <- !app_assoc. reflexivity.
Qed.

Lemma cbflag_polite e h0 w u l' w' :
  polite e -> client_cbflag e Supported (h0, None) w = (Ok u, l', w') ->
  exists evs name d, did evs [] 0 w w' /\ binding_only evs /\
    l' = (h0 ++ lit "p=" ++ name, Some d) /\ client_binding e evs name d.
Proof.
  intros Hp. unfold client_cbflag.
  unfold bind at 1. rewrite push_ok. cbn [fst snd]. intros H. inv_bind H.
  apply maybe_local_polite in H0; [|apply Hp|intros v l1 w1; reflexivity].
  destruct H0 as [evs1 [Hd1 [Hs1 H0]]].
  destruct H0 as [[-> [-> Ha1]]|[v [r [w1 [Ha1 [Hf Hr]]]]]].
  - inv_bind H. apply maybe_cb_local_polite in H0; [|exact Hp|intros v l1 w2; reflexivity].
    destruct H0 as [evs2 [Hd2 [Hs2 H0]]].
    assert (Hb : binding_only (evs1 ++ evs2)).
    { apply binding_only_app; [apply binding_only_override; exact Hs1|].
      apply binding_only_data; exact Hs2. }
    assert (Hov : answers POverrideCBType evs2 = []) by (apply Hs2; discriminate).
    assert (Hcb : answers PChannelBindings evs1 = []) by (apply Hs1; discriminate).
    destruct H0 as [[-> [-> [Hc Ha2]]]|[v [r [w2 [Hc [Hf Hr]]]]]].
    + apply need_cb_local in H; [|intros v l1 w2; reflexivity].
      destruct H as [evs3 [d [w2 [Hd3 [Hs3 [Hc3 Hf]]]]]].
      unfold bind in Hf. rewrite push_ok, set_ok in Hf. injection Hf as <- <-.
      exists ((evs1 ++ evs2) ++ evs3), (lit "tls-unique"), d.
      split; [exact (did_then (did_then Hd1 Hd2) Hd3)|].
      split; [apply binding_only_app; [exact Hb|apply binding_only_data; exact Hs3]|].
      split; [cbn [fst snd]; rewrite <- app_assoc; reflexivity|].
      split.
      * destruct Hc3 as [Hc3|[Hc3 Ha3]]; [left; exact Hc3|right; split; [exact Hc3|]].
        rewrite !answers_app, Hcb, Ha2, Ha3. reflexivity.
      * right. split; [|right; auto]. rewrite !answers_app, Ha1, Hov.
        rewrite (proj1 Hs3) by discriminate. reflexivity.
    + unfold bind in Hf. rewrite push_ok, set_ok in Hf. injection Hf as <- <-.
      cbn in Hr. injection Hr as <-. injection H as <- <- <-.
      exists (evs1 ++ evs2), (lit "tls-exporter"), v.
      split; [exact (did_then Hd1 Hd2)|]. split; [exact Hb|].
      split; [cbn [fst snd]; rewrite <- app_assoc; reflexivity|].
      split.
      * destruct Hc as [Hc|[Hc Ha2]]; [left; exact Hc|right; split; [exact Hc|]].
        rewrite !answers_app, Hcb, Ha2. reflexivity.
      * right. split; [|left; reflexivity]. rewrite !answers_app, Ha1, Hov. reflexivity.
  - unfold bind in Hf. rewrite push_ok in Hf. injection Hf as <- <-.
    cbn in Hr. injection Hr as <-.
    apply need_cb_local in H; [|intros v1 l1 w2; reflexivity].
    destruct H as [evs2 [d [w2 [Hd2 [Hs2 [Hc Hf]]]]]]. rewrite set_ok in Hf.
    injection Hf as <- <-. exists (evs1 ++ evs2), v, d.
    split; [exact (did_then Hd1 Hd2)|].
    split; [apply binding_only_app; [apply binding_only_override; exact Hs1|
            apply binding_only_data; exact Hs2]|].
    split; [cbn [fst snd]; rewrite <- app_assoc; reflexivity|].
    assert (Hov : answers POverrideCBType evs2 = []) by (apply Hs2; discriminate).
    assert (Hcb : answers PChannelBindings evs1 = []) by (apply Hs1; discriminate).
    split.
    + destruct Hc as [Hc|[Hc Ha2]]; [left; exact Hc|right; split; [exact Hc|]].
      rewrite !answers_app, Hcb, Ha2. reflexivity.
    + left. rewrite !answers_app, Ha1, Hov. reflexivity.
Qed.


Lemma esc_ok {L} x (l : L) w y l' w' :
  esc x l w = (Ok y, l', w') <-> escape x = Ok y /\ l' = l /\ w' = w.
Proof.
  unfold esc, of_res. split.
  - intros [= H <- <-]. apply rmap_err_ok in H. auto.
  - intros [H [-> ->]]. rewrite H. reflexivity.
Qed.

Definition authzid_consumer (authzid : bytes) : M cf_locals unit :=
  push_gs2 (lit "a=") ;;; escaped <- esc authzid ;; push_gs2 escaped.
Lemma authzid_consumer_eq z (l : cf_locals) w :
  authzid_consumer z l w =
  match escape z with
  | Ok y => (Ok tt, (fst l ++ lit "a=" ++ y, snd l), w)
  | Err x => (Err (EMech (MSaslName x)), (fst l ++ lit "a=", snd l), w)
  | Panic => (Panic, (fst l ++ lit "a=", snd l), w)
  end.
Proof.
  unfold authzid_consumer, bind. rewrite push_ok. unfold esc, of_res.
  destruct (escape z); cbn [rmap_err fst snd]; try reflexivity.
  rewrite push_ok. cbn [fst snd]. rewrite app_assoc. reflexivity.
Qed.
Lemma authzid_consumer_worldless z : worldless (authzid_consumer z).
Proof. intros l w. rewrite authzid_consumer_eq. destruct (escape z); reflexivity. Qed.

Definition scf_user (e : env) : M cf_locals wait_sf :=
  push_gs2 (lit ",") ;;;
  username <- need_with e PAuthId empty_provider (fun authid : bytes => esc authid) ;;
  client_nonce <- generate_nonce e ;;
  l <- getl ;;
  write_all_vectored [fst l; lit "n="; username; lit ",r="; client_nonce] ;;;
  let cb := match snd l with Some d => fst l ++ d | None => fst l end in
  ret (mk_wsf (encode cb) client_nonce username).

Lemma send_client_first_eq e plus :
  send_client_first e plus =
  (client_cbflag e plus ;;;
   push_gs2 (lit ",") ;;;
   maybe_need_with e PAuthzId empty_provider authzid_consumer ;;;
   scf_user e).
Proof. reflexivity. Qed.

Definition odata (d : option bytes) : bytes := match d with Some d => d | None => [] end.

Lemma scf_user_ok e h d w ws l' w' :
  no_zero (w_script w) -> scf_user e (h, d) w = (Ok ws, l', w') ->
  exists evs user uesc, others_silent PAuthId evs /\ answers PAuthId evs = [user] /\
    escape user = Ok uesc /\
    did evs ((h ++ lit ",") ++ first_bare uesc (nonce_from e (w_rng w))) 24 w w' /\
    ws = mk_wsf (encode ((h ++ lit ",") ++ odata d)) (nonce_from e (w_rng w)) uesc.
Proof.
  intros Hz H. unfold scf_user in H. rewrite (bind_step _ _ _ _ _ _ _ (push_ok _ _ _)) in H.
  cbn [fst snd] in H. inv_bind H. apply need_local in H0.
  2:{ intros v l1 w1. unfold esc, of_res. reflexivity. }
  destruct H0 as [evs [user [w1 [Hd [Hs [_ [Ha Hf]]]]]]].
  apply esc_ok in Hf. destruct Hf as [He [-> _]].
  rewrite (bind_step _ _ _ _ _ _ _ (nonce_ok e _ _)) in H.
  unfold bind at 1, getl in H. cbn [fst snd] in H.
  inv_bind H. injection H as <- <- <-.
  assert (Hr : w_rng w0 = w_rng w) by (destruct Hd as [_ [_ [-> _]]]; reflexivity).
  rewrite Hr in *.
  apply write_all_vectored_ok in H0. destruct H0 as [-> [p [q [_ [_ [Hw Hp]]]]]].
  cbn [w_script] in Hp. specialize (Hp (did_no_zero _ _ _ _ _ Hd Hz)). subst p.
  exists evs, user, a. split; [exact Hs|]. split; [exact Ha|]. split; [exact He|].
  split.
  - pose proof (did_trans _ _ _ _ _ _ _ _ _ Hd (did_draws 24 w0)) as H1. rewrite Hr in H1.
    pose proof (did_trans _ _ _ _ _ _ _ _ _ H1 (did_wrote _ _ _ Hw)) as H2.
    rewrite !app_nil_r in H2. cbn [app Nat.add concat] in H2. rewrite app_nil_r in H2.
    exact H2.
  - f_equal. f_equal. destruct d; cbn [odata]; rewrite ?app_nil_r; reflexivity.
Qed.

(** The shape of what precedes the bare message, for arbitrary callbacks. *)
Definition authzid_sent (evs : list event) (zpart : bytes) : Prop :=
  (zpart = [] /\ answers PAuthzId evs = []) \/
  (exists z : bytes, answers PAuthzId evs = [z] /\
     ((exists y, escape z = Ok y /\ zpart = lit "a=" ++ y) \/
      (exists x, escape z = Err x /\ zpart = lit "a="))).

Lemma escape_not_panic x : escape x <> Panic.
Proof.
  destruct (escape x) as [y|y|] eqn:E; try discriminate. unfold escape in E.
  destruct x as [|b x]; [discriminate|]. destruct (contains zero (b :: x)); [discriminate|].
  destruct (_ || _); discriminate.
Qed.

Lemma step_scram_client e s a st0 input script r out s' :
  s_mech s = XScramC a st0 -> step e s input script = (r, out, s') ->
  exists st1 w', scram_client_step e a input st0
      (mk_world [] script (s_trace s) (s_rng s) (s_val s)) = (r, st1, w') /\
    out = w_out w' /\ s' = mk_session (XScramC a st1) (w_trace w') (w_rng w') (w_val w').
Proof.
  intros Em H. unfold step in H. apply run_ok in H. destruct H as [m' [w' [H [-> ->]]]].
  unfold mech_step, bind, getl in H. rewrite Em in H. apply on_eq in H.
  destruct H as [l' [H ->]]. eauto.
Qed.
Lemma step_scram_server e s a st0 input script r out s' :
  s_mech s = XScramS a st0 -> step e s input script = (r, out, s') ->
  exists st1 w', scram_server_step e a input st0
      (mk_world [] script (s_trace s) (s_rng s) (s_val s)) = (r, st1, w') /\
    out = w_out w' /\ s' = mk_session (XScramS a st1) (w_trace w') (w_rng w') (w_val w').
Proof.
  intros Em H. unfold step in H. apply run_ok in H. destruct H as [m' [w' [H [-> ->]]]].
  unfold mech_step, bind, getl in H. rewrite Em in H. apply on_eq in H.
  destruct H as [l' [H ->]]. eauto.
Qed.

Lemma client_step1 e a plus input w st l' w' :
  scram_client_step e a input (Some (ScInitial plus)) w = (Ok st, l', w') ->
  exists ws cl, send_client_first e plus ([], None) w = (Ok ws, cl, w') /\
    st = Running /\ l' = Some (ScClientFirst ws).
Proof.
  unfold scram_client_step. intros H. unfold bind at 1, getl in H. unfold bind at 1, setl in H.
  inv_bind H. destruct a0 as [ws cl]. unfold bind in H. injection H as <- <- <-.
  apply locally_ok in H0. destruct H0 as [_ H0]. eauto.
Qed.

Theorem client_first_any e s a plus input script st msg s' :
  s_mech s = XScramC a (Some (ScInitial plus)) -> no_zero script ->
  step e s input script = (Ok st, msg, s') ->
  exists evs flagt zpart data user uesc,
    new_events s s' evs /\ st = Running /\
    msg = (flagt ++ lit "," ++ zpart ++ lit ",") ++ first_bare uesc (nonce_from e (s_rng s)) /\
    client_waits s' a (encode ((flagt ++ lit "," ++ zpart ++ lit ",") ++ data))
      (nonce_from e (s_rng s)) uesc /\
    s_rng s' = 24 + s_rng s /\ s_val s' = s_val s /\ validations evs = [] /\
    answers PAuthId evs = [user] /\ escape user = Ok uesc /\ authzid_sent evs zpart /\
    match plus with
    | ClientNoSupport => flagt = lit "n" /\ data = []
    | ServerNoSupport => flagt = lit "y" /\ data = []
    | Supported => exists x, flagt = lit "p=" ++ x
    end.
Proof.
  intros Em Hz H. apply (step_scram_client _ _ _ _ _ _ _ _ _ Em) in H.
  destruct H as [st1 [w' [H [-> ->]]]]. apply client_step1 in H.
  destruct H as [ws [cl [H [-> ->]]]]. rewrite send_client_first_eq in H.
  inv_bind H. apply cbflag_any in H0. destruct H0 as [evs1 [Hd1 [Hb1 Hfl]]].
  unfold bind at 1 in H. rewrite push_ok in H. inv_bind H.
  apply maybe_local in H0; [|apply authzid_consumer_worldless].
  destruct H0 as [evs2 [Hd2 [Hs2 [_ Hz2]]]].
  assert (Hq : exists flagt d, l = (flagt, d) /\
    match plus with
    | ClientNoSupport => flagt = lit "n" /\ odata d = []
    | ServerNoSupport => flagt = lit "y" /\ odata d = []
    | Supported => exists x, flagt = lit "p=" ++ x
    end).
  { destruct plus.
    - destruct Hfl as [-> _]. exists (lit "n"), None. auto.
    - destruct Hfl as [-> _]. exists (lit "y"), None. auto.
    - destruct Hfl as [x [d ->]]. exists (lit "p=" ++ x), (Some d). eauto. }
  destruct Hq as [flagt [d [-> Hfl']]]. clear Hfl. cbn [fst snd] in *.
  assert (Hl : exists zpart, l0 = (flagt ++ lit "," ++ zpart, d) /\
    authzid_sent evs2 zpart).
  { destruct Hz2 as [[_ [-> Ha]]|[z [r [w2 [Ha [Hf [Hr _]]]]]]].
    - exists []. rewrite app_nil_r. split; [reflexivity|left; auto].
    - rewrite authzid_consumer_eq in Hf. cbn [fst snd] in Hf.
      destruct (escape z) as [y|x|] eqn:Ez; injection Hf as <- <-.
      + exists (lit "a=" ++ y). split; [rewrite <- app_assoc; reflexivity|].
        right. exists z. split; [exact Ha|left; eauto].
      + exists (lit "a="). split; [rewrite <- app_assoc; reflexivity|].
        right. exists z. split; [exact Ha|right; eauto].
      + congruence. }
  destruct Hl as [zpart [-> Hzs]]. clear Hz2.
  assert (Hz1 : no_zero (w_script w0)).
  { eapply did_no_zero; [exact (did_then Hd1 Hd2)|exact Hz]. }
  apply scf_user_ok in H; [|exact Hz1].
  destruct H as [evs3 [user [uesc [Hs3 [Ha3 [He [Hd3 ->]]]]]]].
  assert (Hr : w_rng w0 = s_rng s) by (apply (did_then Hd1 Hd2)).
  rewrite Hr in *.
  pose proof (did_trans _ _ _ _ _ _ _ _ _ (did_then Hd1 Hd2) Hd3) as [T [O [R [V _]]]].
  cbn [w_trace w_out w_rng w_val] in *.
  exists ((evs1 ++ evs2) ++ evs3), flagt, zpart, (odata d), user, uesc.
  split; [unfold new_events; cbn [s_trace]; exact T|].
  split; [reflexivity|]. split; [rewrite O; rewrite <- !app_assoc; reflexivity|].
  split; [unfold client_waits; cbn [s_mech]; do 4 f_equal; rewrite <- !app_assoc; reflexivity|].
  split; [cbn [s_rng]; rewrite R; reflexivity|]. split; [cbn [s_val]; exact V|].
  split; [rewrite !validations_app, (proj2 Hb1), (proj2 Hs2), (proj2 Hs3); reflexivity|].
  split; [rewrite !answers_app, (proj1 Hb1), (proj1 Hs2), Ha3 by discriminate; reflexivity|].
  split; [exact He|]. split; [|exact Hfl'].
  unfold authzid_sent in *. rewrite !answers_app, (proj1 Hb1), (proj1 Hs3) by discriminate.
  cbn [app]. rewrite app_nil_r. exact Hzs.
Qed.

Theorem client_first_polite e s a plus input script st msg s' :
  s_mech s = XScramC a (Some (ScInitial plus)) -> polite e -> no_zero script ->
  step e s input script = (Ok st, msg, s') ->
  exists evs f z zesc data user uesc,
    new_events s s' evs /\ st = Running /\
    msg = gs2_text f zesc ++ first_bare uesc (nonce_from e (s_rng s)) /\
    client_waits s' a (encode (gs2_text f zesc ++ data)) (nonce_from e (s_rng s)) uesc /\
    s_rng s' = 24 + s_rng s /\ s_val s' = s_val s /\ validations evs = [] /\
    answers PAuthId evs = [user] /\ escape user = Ok uesc /\
    @answered PAuthzId evs z /\ escaped z zesc /\ flag_for plus f /\
    match f with CbUsed name => client_binding e evs name data | _ => data = [] end.
Proof.
  intros Em Hp Hz H. apply (step_scram_client _ _ _ _ _ _ _ _ _ Em) in H.
  destruct H as [st1 [w' [H [-> ->]]]]. apply client_step1 in H.
  destruct H as [ws [cl [H [-> ->]]]]. rewrite send_client_first_eq in H.
  inv_bind H.
  assert (Hfl : exists evs f d, did evs [] 0 (mk_world [] script (s_trace s) (s_rng s) (s_val s)) w /\
     binding_only evs /\ l = (flag_text f, d) /\ flag_for plus f /\
     match f with CbUsed name => client_binding e evs name (odata d) | _ => odata d = [] end).
  { destruct plus.
    - apply cbflag_any in H0. destruct H0 as [evs [Hd [Hb [-> _]]]].
      exists evs, CbNotSupported, None. repeat (split; [assumption || reflexivity|]). reflexivity.
    - apply cbflag_any in H0. destruct H0 as [evs [Hd [Hb [-> _]]]].
      exists evs, CbSupportedNotUsed, None. repeat (split; [assumption || reflexivity|]). reflexivity.
    - apply cbflag_polite in H0; [|exact Hp]. destruct H0 as [evs [name [d [Hd [Hb [-> Hc]]]]]].
      exists evs, (CbUsed name), (Some d). split; [exact Hd|]. split; [exact Hb|].
      split; [reflexivity|]. split; [exists name; reflexivity|exact Hc]. }
  clear H0. destruct Hfl as [evs1 [f [d [Hd1 [Hb1 [-> [Hff Hfd]]]]]]].
  rewrite (bind_step _ _ _ _ _ _ _ (push_ok _ _ _)) in H. cbn [fst snd] in H. inv_bind H.
  apply maybe_local_polite in H0; [|apply Hp|apply authzid_consumer_worldless].
  destruct H0 as [evs2 [Hd2 [Hs2 Hz2]]].
  assert (Hl : exists z zesc,
    l = (flag_text f ++ lit "," ++ match zesc with Some y => lit "a=" ++ y | None => [] end, d) /\
    @answered PAuthzId evs2 z /\ escaped z zesc).
  { destruct Hz2 as [[_ [-> Ha]]|[z [r [w2 [Ha [Hf Hr]]]]]].
    - exists None, None. rewrite app_nil_r. split; [reflexivity|]. split; [exact Ha|exact I].
    - rewrite authzid_consumer_eq in Hf. cbn [fst snd] in Hf.
      destruct (escape z) as [y|x|] eqn:Ez; injection Hf as <- <-; try discriminate.
      exists (Some z), (Some y). split; [rewrite <- app_assoc; reflexivity|].
      split; [exact Ha|exact Ez]. }
  destruct Hl as [z [zesc [-> [Hza Hze]]]]. clear Hz2.
  assert (Hz1 : no_zero (w_script w0)).
  { eapply did_no_zero; [exact (did_then Hd1 Hd2)|exact Hz]. }
  apply scf_user_ok in H; [|exact Hz1].
  destruct H as [evs3 [user [uesc [Hs3 [Ha3 [He [Hd3 ->]]]]]]].
  assert (Hr : w_rng w0 = s_rng s) by (apply (did_then Hd1 Hd2)).
  rewrite Hr in *.
  pose proof (did_trans _ _ _ _ _ _ _ _ _ (did_then Hd1 Hd2) Hd3) as [T [O [R [V _]]]].
  cbn [w_trace w_out w_rng w_val] in *.
  assert (Hg : (flag_text f ++ lit "," ++
     match zesc with Some y => lit "a=" ++ y | None => [] end) ++ lit "," = gs2_text f zesc).
  { unfold gs2_text. rewrite <- !app_assoc. reflexivity. }
  rewrite Hg in *. clear Hg.
  exists ((evs1 ++ evs2) ++ evs3), f, z, zesc, (odata d), user, uesc.
  split; [exact T|]. split; [reflexivity|]. split; [rewrite O; reflexivity|].
  split; [reflexivity|].
  split; [cbn [s_rng]; rewrite R; reflexivity|]. split; [cbn [s_val]; exact V|].
  split; [rewrite !validations_app, (proj2 Hb1), (proj2 Hs2), (proj2 Hs3); reflexivity|].
  split; [rewrite !answers_app, (proj1 Hb1), (proj1 Hs2), Ha3 by discriminate; reflexivity|].
  split; [exact He|].
  split.
  { unfold answered in *. rewrite !answers_app, (proj1 Hb1), (proj1 Hs3) by discriminate.
    cbn [app]. rewrite app_nil_r. exact Hza. }
  split; [exact Hze|]. split; [exact Hff|].
  destruct f; try exact Hfd. destruct Hfd as [Hc Ho]. split.
  - destruct Hc as [Hc|[Hc Ha]]; [left; exact Hc|right; split; [exact Hc|]].
    rewrite !answers_app, Ha, (proj1 Hs2), (proj1 Hs3) by discriminate. reflexivity.
  - rewrite !answers_app, (proj1 Hs2), (proj1 Hs3) by discriminate. rewrite !app_nil_r. exact Ho.
Qed.

(** * The server's first message *)

Lemma build_header cf : build_gs2_header cf = gs2_text (cf_cbflag cf) (cf_authzid cf).
Proof.
  unfold build_gs2_header, gs2_header_parts, gs2_text. rewrite concat_app.
  destruct (cf_cbflag cf), (cf_authzid cf); cbn; rewrite ?app_nil_r, <- ?app_assoc; reflexivity.
Qed.

Lemma scram_parse_ok {L A} (r : res parseerr A) (l : L) w x l' w' :
  scram_parse r l w = (Ok x, l', w') -> r = Ok x /\ l' = l /\ w' = w.
Proof.
  unfold scram_parse, of_res. intros [= H <- <-]. apply rmap_err_ok in H. auto.
Qed.

Lemma parse_fields m cf : client_first_parse m = Ok cf ->
  exists two t, client_first_fields m (cf_cbflag cf) two (cf_authzid cf) (cf_username cf)
    (cf_nonce cf) t.
Proof.
  intros H. apply client_first_parse_inv in H.
  destruct H as [two [t [Hm [Hf [Hz [H2 [Hzu [Hu [Huu [Hn Ht]]]]]]]]]].
  exists two, t. unfold client_first_fields. unfold authzid_part in *. auto 12.
Qed.
Lemma fields_parse m f two z user nonce t :
  client_first_fields m f two z user nonce t ->
  client_first_parse m = Ok (mk_cf f z user nonce).
Proof.
  intros [-> [H2 [Hf [Hn [Ht [Hz [Hu [Huu Hzu]]]]]]]].
  apply client_first_parse_text; assumption.
Qed.

Definition stored_consumer (a : alg) (s : stored) : M bytes (bytes * bytes * bytes * bytes) :=
  if Nat.eqb (length (st_stored_key s)) (hlen a) && Nat.eqb (length (st_server_key s)) (hlen a)
  then ret (fmt_u32 (st_iterations s), encode (st_salt s), st_stored_key s, st_server_key s)
  else fail (EMech MScramPasswordHashInvalid).
Lemma stored_worldless a s : worldless (stored_consumer a s).
Proof. intros l w. unfold stored_consumer. destruct (_ && _); reflexivity. Qed.
Lemma stored_ok a s (l : bytes) w x l' w' :
  stored_consumer a s l w = (Ok x, l', w') ->
  usable a s /\ l' = l /\
  x = (fmt_u32 (st_iterations s), encode (st_salt s), st_stored_key s, st_server_key s).
Proof.
  unfold stored_consumer. destruct (_ && _) eqn:E; [|discriminate]. intros [= <- <- <-].
  apply andb_true_iff in E. destruct E as [E1 E2]. apply Nat.eqb_eq in E1, E2.
  unfold usable. auto.
Qed.
Lemma stored_local a s (l : bytes) w r l' w' : stored_consumer a s l w = (r, l', w') -> l' = l.
Proof. unfold stored_consumer. destruct (_ && _); intros [= <- <- <-]; reflexivity. Qed.

Definition hcf_send (e : env) (cf : client_first)
    (params : option (bytes * bytes * bytes * bytes)) : M bytes (option final_inner) :=
  server_nonce <- generate_nonce e ;;
  match params with
  | Some (iterations, salt, stored_key, server_key) =>
      write_all_vectored (server_first_slices (cf_nonce cf) server_nonce salt iterations) ;;;
      gs2_header <- getl ;;
      ret (Some (mk_fi (cf_nonce cf) server_nonce gs2_header (cf_username cf)
                       (cf_authzid cf) salt iterations stored_key server_key))
  | None =>
      salt <- random_bytes e default_salt_len ;;
      write_all_vectored
        (server_first_slices (cf_nonce cf) server_nonce (encode salt) default_iterations) ;;;
      ret None
  end.

Definition hcf_bind (e : env) (plus : bool) (cf : client_first) (provider : ctx) : M bytes unit :=
  match cf_cbflag cf with
  | CbSupportedNotUsed =>
      if plus then fail (EMech MScramChannelBindingsNotUsed) else ret tt
  | CbNotSupported => ret tt
  | CbUsed name =>
      need_cb_data e name provider (fun cbdata => h <- getl ;; setl (h ++ cbdata))
  end.

Lemma handle_client_first_eq e a plus input :
  handle_client_first e a plus input =
  (cf <- scram_parse (client_first_parse input) ;;
   setl (build_gs2_header cf) ;;;
   let provider := scram_server_provider (cf_username cf) (cf_authzid cf) in
   hcf_bind e plus cf provider ;;;
   params <- maybe_need_with e PScramStoredPassword provider (stored_consumer a) ;;
   hcf_send e cf params).
Proof. unfold handle_client_first, hcf_bind, hcf_send, stored_consumer. reflexivity. Qed.

Lemma hcf_bind_ok e plus cf provider h w u h' w' :
  hcf_bind e plus cf provider h w = (Ok u, h', w') ->
  exists evs data, did evs [] 0 w w' /\ others_silent PChannelBindings evs /\
    flag_data e evs (cf_cbflag cf) data /\ h' = h ++ data /\
    (cf_cbflag cf = CbSupportedNotUsed -> plus = false).
Proof.
  unfold hcf_bind. destruct (cf_cbflag cf) as [| |name] eqn:Ef.
  - destruct plus; [discriminate|].
    intros [= <- <- <-]. exists [], []. split; [apply did_refl|]. split; [split; reflexivity|].
    split; [reflexivity|]. rewrite app_nil_r. split; reflexivity.
  - intros [= <- <- <-]. exists [], []. split; [apply did_refl|]. split; [split; reflexivity|].
    split; [reflexivity|]. rewrite app_nil_r. split; [reflexivity|discriminate].
  - intros H. apply need_cb_local in H; [|intros v l1 w1; reflexivity].
    destruct H as [evs [d [w0 [Hd [Hs [Hc Hf]]]]]]. unfold bind, getl, setl in Hf.
    injection Hf as _ <-. exists evs, d. split; [exact Hd|]. split; [exact Hs|].
    split; [exact Hc|]. split; [reflexivity|discriminate].
Qed.

Lemma random_ok {L} e (l : L) w :
  random_bytes e default_salt_len l w = (Ok (dummy_salt e (w_rng w)), l,
    mk_world (w_out w) (w_script w) (w_trace w) (32 + w_rng w) (w_val w)).
Proof.
  unfold random_bytes, bind. rewrite draws_ok. unfold ret, dummy_salt. rewrite map_map. reflexivity.
Qed.

(** What the server-first message ends up as, and what is remembered. *)
Lemma sent_first {L} cn sn salt it (l : L) w n l' w' :
  write_all_vectored (server_first_slices cn sn salt it) l w = (Ok n, l', w') ->
  l' = l /\ exists out, did [] out 0 w w' /\
    (no_zero (w_script w) -> out = server_first_text (cn ++ sn) salt it).
Proof.
  intros H. apply write_all_vectored_ok in H. destruct H as [-> [p [q [_ [_ [Hw Hp]]]]]].
  split; [reflexivity|]. exists p. split; [apply did_wrote; exact Hw|].
  intros Hz. rewrite (Hp Hz). unfold server_first_slices, server_first_text.
  cbn [concat]. rewrite app_nil_r, <- !app_assoc. reflexivity.
Qed.

Definition hcf_known cf sn it salt k1 k2 : M bytes (option final_inner) :=
  write_all_vectored (server_first_slices (cf_nonce cf) sn salt it) ;;;
  gs2_header <- getl ;;
  ret (Some (mk_fi (cf_nonce cf) sn gs2_header (cf_username cf) (cf_authzid cf) salt it k1 k2)).
Lemma hcf_known_ok cf sn it salt k1 k2 h w d h' w' :
  hcf_known cf sn it salt k1 k2 h w = (Ok d, h', w') ->
  d = Some (mk_fi (cf_nonce cf) sn h (cf_username cf) (cf_authzid cf) salt it k1 k2) /\
  exists out, did [] out 0 w w' /\
    (no_zero (w_script w) -> out = server_first_text (cf_nonce cf ++ sn) salt it).
Proof.
  unfold hcf_known. intros H. inv_bind H. apply sent_first in H0. destruct H0 as [-> H0].
  unfold bind, getl in H. injection H as <- <- <-. auto.
Qed.
Definition hcf_unknown e cf sn : M bytes (option final_inner) :=
  salt <- random_bytes e default_salt_len ;;
  write_all_vectored (server_first_slices (cf_nonce cf) sn (encode salt) default_iterations) ;;;
  ret None.
Lemma hcf_unknown_ok e cf sn h w d h' w' :
  hcf_unknown e cf sn h w = (Ok d, h', w') ->
  d = None /\ exists out, did [] out 32 w w' /\
    (no_zero (w_script w) -> out = server_first_text (cf_nonce cf ++ sn)
       (encode (dummy_salt e (w_rng w))) (lit "16384")).
Proof.
  unfold hcf_unknown. intros H.
  rewrite (bind_step _ _ _ _ _ _ _ (random_ok e h w)) in H. inv_bind H. injection H as <- _ <-.
  apply sent_first in H0. destruct H0 as [_ [out [Hd Ho]]].
  split; [reflexivity|]. exists out.
  split; [exact (did_trans _ _ _ _ _ _ _ _ _ (did_draws 32 w) Hd)|exact Ho].
Qed.

Lemma hcf_send_eq e cf params h w :
  hcf_send e cf params h w =
  match params with
  | Some (it, salt, k1, k2) => hcf_known cf (nonce_from e (w_rng w)) it salt k1 k2
  | None => hcf_unknown e cf (nonce_from e (w_rng w))
  end h (mk_world (w_out w) (w_script w) (w_trace w) (24 + w_rng w) (w_val w)).
Proof.
  unfold hcf_send. rewrite (bind_step _ _ _ _ _ _ _ (nonce_ok e _ _)).
  unfold hcf_known, hcf_unknown. destruct params as [[[[it salt] k1] k2]|]; reflexivity.
Qed.

Lemma hcf_send_ok e cf params h w d h' w' :
  hcf_send e cf params h w = (Ok d, h', w') ->
  exists n out, did [] out n w w' /\
  match params with
  | Some (iterations, salt, stored_key, server_key) =>
      n = 24 /\ d = Some (mk_fi (cf_nonce cf) (nonce_from e (w_rng w)) h (cf_username cf)
                                (cf_authzid cf) salt iterations stored_key server_key) /\
      (no_zero (w_script w) ->
       out = server_first_text (cf_nonce cf ++ nonce_from e (w_rng w)) salt iterations)
  | None =>
      n = 32 + 24 /\ d = None /\
      exists salt, salt = dummy_salt e (24 + w_rng w) /\
      (no_zero (w_script w) ->
       out = server_first_text (cf_nonce cf ++ nonce_from e (w_rng w)) (encode salt) (lit "16384"))
  end.
Proof.
  rewrite hcf_send_eq. generalize (nonce_from e (w_rng w)) as sn. intros sn H.
  pose proof (did_draws 24 w) as Hd.
  destruct params as [[[[it salt] k1] k2]|].
  - apply hcf_known_ok in H. destruct H as [-> [out [Hd2 Ho]]].
    exists 24, out. split; [exact (did_trans _ _ _ _ _ _ _ _ _ Hd Hd2)|]. auto.
  - apply hcf_unknown_ok in H. destruct H as [-> [out [Hd2 Ho]]].
    exists (32 + 24), out. split; [exact (did_trans _ _ _ _ _ _ _ _ _ Hd Hd2)|]. split; [reflexivity|]. split; [reflexivity|].
    eexists. split; [reflexivity|exact Ho].
Qed.

Lemma server_step1 e a plus m w st l' w' :
  scram_server_step e a (Some m) (Some (SsClientFirst plus)) w = (Ok st, l', w') ->
  exists d cl, handle_client_first e a plus m [] w = (Ok d, cl, w') /\
    st = Running /\ l' = Some (SsClientFinal d).
Proof.
  unfold scram_server_step. intros H. unfold bind at 1, getl in H. unfold bind at 1, setl in H.
  inv_bind H. destruct a0 as [d cl]. unfold bind in H. injection H as <- <- <-.
  apply locally_ok in H0. destruct H0 as [_ H0]. eauto.
Qed.

Theorem server_first_any e s a plus m script st out s' :
  s_mech s = XScramS a (Some (SsClientFirst plus)) ->
  step e s (Some m) script = (Ok st, out, s') ->
  exists evs f two z user cn t data,
    st = Running /\ new_events s s' evs /\ validations evs = [] /\ s_val s' = s_val s /\
    client_first_fields m f two z user cn t /\
    (f = CbSupportedNotUsed -> plus = false) /\ flag_data e evs f data /\
    let sn := nonce_from e (s_rng s) in
    ((exists sp, answers PScramStoredPassword evs = [sp] /\ usable a sp /\
        server_waits s' a cn sn (gs2_text f z ++ data) user z sp /\
        s_rng s' = 24 + s_rng s /\
        (no_zero script -> out = server_first_text (cn ++ sn) (encode (st_salt sp))
                                                  (fmt_u32 (st_iterations sp)))) \/
     (server_pretends s' a /\ s_rng s' = 32 + 24 + s_rng s /\
        (polite e -> answers PScramStoredPassword evs = []) /\
        exists salt, salt = dummy_salt e (24 + s_rng s) /\
          (no_zero script -> out = server_first_text (cn ++ sn) (encode salt) (lit "16384")))).
Proof.
  intros Em H. apply (step_scram_server _ _ _ _ _ _ _ _ _ Em) in H.
  destruct H as [st1 [w' [H [-> ->]]]]. apply server_step1 in H.
  destruct H as [d [cl [H [-> ->]]]]. rewrite handle_client_first_eq in H.
  inv_bind H. apply scram_parse_ok in H0. destruct H0 as [Hcf [-> ->]].
  destruct (parse_fields _ _ Hcf) as [two [t Hm]].
  unfold bind at 1, setl in H. rewrite build_header in H. cbn zeta in H. inv_bind H.
  apply hcf_bind_ok in H0. destruct H0 as [evs1 [data [Hd1 [Hs1 [Hfd [-> Hplus]]]]]].
  inv_bind H. pose proof H0 as H0'.
  apply maybe_local in H0; [|apply stored_worldless].
  destruct H0 as [evs2 [Hd2 [Hs2 [_ H0]]]].
  assert (El : l = gs2_text (cf_cbflag a0) (cf_authzid a0) ++ data).
  { destruct H0 as [[_ [-> _]]|[v [r [w1 [_ [Hf _]]]]]]; [reflexivity|].
    apply stored_local in Hf. exact Hf. }
  subst l.
  apply hcf_send_ok in H. destruct H as [n [out [Hd3 Hout]]].
  pose proof (did_then Hd1 Hd2) as Hd12.
  assert (Hr : w_rng w0 = s_rng s) by (apply Hd12).
  assert (Hnz : no_zero script -> no_zero (w_script w0)).
  { intros Hz. exact (did_no_zero _ _ _ _ _ Hd12 Hz). }
  rewrite Hr in Hout.
  pose proof (did_trans _ _ _ _ _ _ _ _ _ Hd12 Hd3) as [T [O [R [V _]]]].
  rewrite app_nil_r in T. cbn [w_trace w_out w_rng w_val app] in *.
  exists (evs1 ++ evs2), (cf_cbflag a0), two, (cf_authzid a0), (cf_username a0), (cf_nonce a0), t,
    data.
  split; [reflexivity|]. split; [exact T|].
  split; [rewrite validations_app, (proj2 Hs1), (proj2 Hs2); reflexivity|].
  split; [exact V|]. split; [exact Hm|]. split; [exact Hplus|].
  assert (Hst : answers PScramStoredPassword (evs1 ++ evs2) = answers PScramStoredPassword evs2).
  { rewrite answers_app, (proj1 Hs1) by discriminate. reflexivity. }
  split.
  { unfold flag_data in *. destruct (cf_cbflag a0); auto.
    destruct Hfd as [Hc|[Hc Ha]]; [left; exact Hc|right; split; [exact Hc|]].
    rewrite answers_app, Ha, (proj1 Hs2) by discriminate. reflexivity. }
  cbn zeta. rewrite Hst. rewrite Nat.add_0_r in R.
  destruct a2 as [[[[it salt] k1] k2]|].
  - left. destruct H0 as [[H _]|[sp [r [w1 [Ha [Hf [_ Hg]]]]]]]; [discriminate|].
    rewrite (Hg _ eq_refl) in Hf. apply stored_ok in Hf.
    destruct Hf as [Hu [_ Hx]]. injection Hx as -> -> -> ->.
    destruct Hout as [-> [-> Hout]]. exists sp. split; [exact Ha|]. split; [exact Hu|].
    split; [reflexivity|]. split; [exact R|]. intros Hz. rewrite O. apply Hout, Hnz, Hz.
  - right. destruct Hout as [-> [-> [salt [Hl Hout]]]]. split; [reflexivity|].
    split; [exact R|]. split.
    + intros Hp. apply maybe_local_polite in H0'; [|apply Hp|apply stored_worldless].
      destruct H0' as [evs2' [Hd2' [_ H2]]].
      assert (evs2' = evs2) as ->.
      { destruct Hd2 as [T2 _], Hd2' as [T2' _]. rewrite T2 in T2'.
        apply app_inv_head in T2'. congruence. }
      destruct H2 as [[_ [_ Ha]]|[v [r [w1 [_ [Hf Hr2]]]]]]; [exact Ha|].
      exfalso. unfold stored_consumer in Hf. destruct (_ && _); injection Hf as <-; discriminate.
    + exists salt. split; [exact Hl|]. intros Hz. rewrite O. apply Hout, Hnz, Hz.
Qed.

(** * The server's final message *)

Lemma send_final_any {L} m (l : L) w r l' w' :
  send_final m l w = (r, l', w') ->
  l' = l /\ exists p q, concat (server_final_slices m) = p ++ q /\ wrote p w w' /\
    ((r = Ok tt /\ (no_zero (w_script w) -> q = [])) \/ exists x, r = Err (EIo x)).
Proof.
  unfold send_final, bind. intros H.
  destruct (write_all_vectored_spec (server_final_slices m) l w) as [p [q [w1 [E [Hw [[H1 Hz]|[x H1]]]]]]];
    rewrite H1 in H; injection H as <- <- <-; split; auto; exists p, q; eauto.
Qed.

Lemma scram_provider_offers user z : offers_scram (scram_server_provider user z) user z.
Proof.
  split; [reflexivity|]. split; [destruct z; reflexivity|].
  intros q H1 H2. unfold scram_server_provider. cbn. rewrite castp_neq by congruence.
  destruct z; cbn; [rewrite castp_neq by congruence|]; reflexivity.
Qed.

Lemma error_values x v : error_value x v <-> v = srverr_bytes x.
Proof.
  split; [intros []; reflexivity|]. intros ->. destruct x; constructor.
Qed.

(** What handle_client_final does with a message that is refused. *)
Definition refused {L} (r : res serr unit) (l l' : L) (w w' : world) : Prop :=
  l' = l /\ exists p, wrote p w w' /\ error_prefix p /\
    (r = Ok tt -> no_zero (w_script w) -> error_message p).
Lemma refused_early {L} (r : res serr unit) (l : L) w : r <> Ok tt -> refused r l l w w.
Proof.
  intros H. split; [reflexivity|]. exists []. split; [apply wrote_refl|]. split.
  - exists SeInvalidProof, (lit "invalid-proof"), (lit "e=invalid-proof").
    split; [constructor|reflexivity].
  - intros H1. congruence.
Qed.
Lemma refused_sent {L} x (l : L) w r l' w' :
  send_final (SfError x) l w = (r, l', w') -> refused r l l' w w'.
Proof.
  intros H. apply send_final_any in H. destruct H as [-> [p [q [E [Hw Hr]]]]].
  cbn [server_final_slices concat] in E. rewrite app_nil_r in E.
  split; [reflexivity|]. exists p. split; [exact Hw|]. split.
  { exists x, (srverr_bytes x), q. split; [apply error_values; reflexivity|exact E]. }
  intros -> Hz. destruct Hr as [[_ Hq]|[y Hr]]; [|discriminate].
  exists x, (srverr_bytes x). split; [apply error_values; reflexivity|].
  rewrite E, (Hq Hz), app_nil_r. reflexivity.
Qed.

Lemma decode_slice_some p64 n P :
  decode_slice p64 n = Some P <->
  exists p, decode p64 = Some p /\ length p <= n /\ P = p ++ repeat zero (n - length p).
Proof.
  unfold decode_slice. destruct (decode p64) as [p|].
  - destruct (Nat.leb (length p) n) eqn:E.
    + apply Nat.leb_le in E. split.
      * intros [= <-]. eauto.
      * intros [p' [[= <-] [_ ->]]]. reflexivity.
    + apply Nat.leb_gt in E. split; [discriminate|]. intros [p' [[= <-] [H _]]]. lia.
  - split; [discriminate|]. intros [p [H _]]. discriminate.
Qed.
Lemma proof_value_length a p64 P : proof_value a p64 P -> length P = hlen a.
Proof.
  intros [p [_ [Hl ->]]]. rewrite app_length, repeat_length. lia.
Qed.
Lemma proof_value_fits a p64 P : proof_value a p64 P -> length p64 <= hlen a * 4 / 3 + 3.
Proof.
  intros [p [Hd [Hl _]]]. apply decode_canonical in Hd. subst p64. rewrite encode_length.
  assert ((length p + 2) / 3 <= (hlen a + 2) / 3) by (apply Nat.div_le_mono; lia).
  destruct a; cbn [hlen] in *.
  - change ((20 + 2) / 3) with 7 in *. change (20 * 4 / 3 + 3) with 29. lia.
  - change ((32 + 2) / 3) with 11 in *. change (32 * 4 / 3 + 3) with 45. lia.
  - change ((64 + 2) / 3) with 22 in *. change (64 * 4 / 3 + 3) with 88. lia.
Qed.

Lemma exact_ok {L} a x (l : L) w : length x = hlen a -> exact a x l w = (Ok x, l, w).
Proof. intros H. unfold exact. rewrite H, Nat.eqb_refl. reflexivity. Qed.

Theorem client_final_handled {L} e a cn sn header user z sp m (l : L) w r l' w' :
  (forall a k x, length (e_hmac e a k x) = hlen a) ->
  handle_client_final e a (Some (mk_fi cn sn header user z (encode (st_salt sp))
     (fmt_u32 (st_iterations sp)) (st_stored_key sp) (st_server_key sp))) m l w = (r, l', w') ->
  (exists cb p64 exts, authenticates e a cn sn header user sp m cb p64 exts /\
     (send_final (SfVerifier (encode (server_signature e a (st_server_key sp)
        (exchange_message user cn sn (encode (st_salt sp)) (fmt_u32 (st_iterations sp)) cb)))) ;;;
      validate e (scram_server_provider user z)) l w = (r, l', w')) \/
  ((forall cb p64 exts, ~ authenticates e a cn sn header user sp m cb p64 exts) /\
   refused r l l' w w').
Proof.
  intros Hcr H. unfold handle_client_final in H. unfold bind at 1 in H.
  unfold scram_parse at 1, of_res in H.
  cbn [fi_client_nonce fi_server_nonce fi_gs2_header fi_username fi_authzid fi_salt fi_iterations
       fi_stored_key fi_server_key] in H.
  assert (Huniq : forall cb p64 exts, authenticates e a cn sn header user sp m cb p64 exts ->
            client_final_parse m = Ok (mk_cl cb (cn ++ sn) p64)).
  { intros cb p64 exts [-> [F1 [F2 [F3 [F4 _]]]]]. apply client_final_parse_exact. eauto 10. }
  destruct (client_final_parse m) as [cl|x|] eqn:Ep; cbn [rmap_err] in H.
  2-3: injection H as <- <- <-; right; split;
    [intros cb p64 exts Ha; specialize (Huniq _ _ _ Ha); discriminate|
     apply refused_early; discriminate].
  destruct cl as [cb fn p64]. cbn [cl_cb cl_nonce cl_proof] in H.
  apply client_final_parse_exact in Ep. destruct Ep as [exts [Em [F1 [F2 [F3 F4]]]]].
  assert (Hno : forall (P : Prop), (decode cb = Some header -> fn = cn ++ sn -> P -> False) ->
     (forall exts', authenticates e a cn sn header user sp m cb p64 exts' -> P) ->
     forall cb p64 exts, ~ authenticates e a cn sn header user sp m cb p64 exts).
  { intros P H1 H2 cb' p64' exts' Ha. pose proof (Huniq _ _ _ Ha) as E. injection E as -> -> ->.
    pose proof Ha as Hb. destruct Hb as [_ [_ [_ [_ [_ [Hd _]]]]]].
    exact (H1 Hd eq_refl (H2 exts' Ha)). }
  destruct (decode cb) as [b|] eqn:Ecb.
  2:{ injection H as <- <- <-. right. split; [|apply refused_early; discriminate].
      apply (Hno True); [discriminate|trivial]. }
  destruct (bytes_eqb header b) eqn:Eh; cbn [negb] in H.
  2:{ apply refused_sent in H. right. split; [|exact H].
      apply (Hno True); [|trivial]. intros [= ->].
      assert (bytes_eqb header header = true) by (apply bytes_eqb_eq; reflexivity). congruence. }
  apply bytes_eqb_eq in Eh. subst b.
  destruct (strip_prefix cn fn) as [sn'|] eqn:Es.
  2:{ apply refused_sent in H. right. split; [|exact H].
      apply (Hno True); [|trivial]. intros _ ->. rewrite strip_prefix_app in Es. discriminate. }
  apply strip_prefix_iff in Es. subst fn.
  destruct (bytes_eqb sn' sn) eqn:En.
  2:{ cbn [andb] in H. apply refused_sent in H. right. split; [|exact H].
      apply (Hno True); [|trivial]. intros _ E. apply app_inv_head in E. subst sn'.
      assert (bytes_eqb sn sn = true) by (apply bytes_eqb_eq; reflexivity). congruence. }
  apply bytes_eqb_eq in En. subst sn'. cbn [andb] in H.
  destruct (Nat.leb (length p64) (hlen a * 4 / 3 + 3)) eqn:El.
  2:{ apply refused_sent in H. right. split; [|exact H]. apply Nat.leb_gt in El.
      apply (Hno (length p64 <= hlen a * 4 / 3 + 3)); [intros _ _; lia|].
      intros exts' [_ [_ [_ [_ [_ [_ [P [HP _]]]]]]]]. exact (proof_value_fits _ _ _ HP). }
  destruct (decode_slice p64 (hlen a)) as [P|] eqn:Ed.
  2:{ injection H as <- <- <-. right. split; [|apply refused_early; discriminate].
      apply (Hno (exists P, decode_slice p64 (hlen a) = Some P)).
      - intros _ _ [P HP]. congruence.
      - intros exts' [_ [_ [_ [_ [_ [_ [P [HP _]]]]]]]]. exists P. apply decode_slice_some. exact HP. }
  assert (HP : proof_value a p64 P) by (apply decode_slice_some; exact Ed).
  unfold compute_signatures in H. cbn [fst snd] in H. rewrite auth_message_rfc in H.
  fold (exchange_message user cn sn (encode (st_salt sp)) (fmt_u32 (st_iterations sp)) cb) in H.
  rewrite (bind_step _ _ _ _ _ _ _ (exact_ok a _ l w
    (eq_trans (xor_zip_length P _) (eq_trans (f_equal2 Nat.min (proof_value_length _ _ _ HP)
      (Hcr _ _ _)) (Nat.min_id _))))) in H.
  destruct (bytes_eqb (st_stored_key sp) _) eqn:Eq.
  - apply bytes_eqb_eq in Eq. left. exists cb, p64, exts. split; [|exact H].
    split; [exact Em|]. repeat (split; [assumption|]). exists P. split; [exact HP|].
    unfold proves. rewrite <- xor_zip_text. symmetry. exact Eq.
  - apply refused_sent in H. right. split; [|exact H].
    apply (Hno (proves e a (st_stored_key sp)
      (exchange_message user cn sn (encode (st_salt sp)) (fmt_u32 (st_iterations sp)) cb) P)).
    + intros _ _ Hpr. unfold proves in Hpr. rewrite <- xor_zip_text in Hpr. rewrite Hpr in Eq.
      assert (bytes_eqb (st_stored_key sp) (st_stored_key sp) = true)
        by (apply bytes_eqb_eq; reflexivity). congruence.
    + intros exts' [_ [_ [_ [_ [_ [_ [P' [HP' Hpr]]]]]]]].
      apply decode_slice_some in HP'. rewrite Ed in HP'. injection HP' as ->. exact Hpr.
Qed.

Lemma server_step2 e a d m w r l' w' :
  scram_server_step e a (Some m) (Some (SsClientFinal d)) w = (r, l', w') ->
  exists r1 l1, handle_client_final e a d m (None : option scram_sst) w = (r1, l1, w') /\
    ((r1 = Ok tt /\ r = Ok (Finished true) /\ l' = Some SsFinished) \/
     (exists x, r1 = Err x /\ r = Err x /\ l' = l1) \/ (r1 = Panic /\ r = Panic /\ l' = l1)).
Proof.
  unfold scram_server_step. intros H. unfold bind at 1, getl in H. unfold bind at 1, setl in H.
  unfold bind at 1 in H. destruct (handle_client_final e a d m None w) as [[[[]|x|] l1] w1];
    injection H as <- <- <-; eauto 10.
Qed.

Definition verifier_text (e : env) (a : alg) (cn sn user : bytes) (sp : stored) (cb : bytes)
  : bytes :=
  lit "v=" ++ encode (server_signature e a (st_server_key sp)
    (exchange_message user cn sn (encode (st_salt sp)) (fmt_u32 (st_iterations sp)) cb)).

Theorem server_second e s a cn sn header user z sp m script r out s' :
  server_waits s a cn sn header user z sp -> crypto_ok e ->
  step e s (Some m) script = (r, out, s') ->
  (exists cb p64 exts rest, authenticates e a cn sn header user sp m cb p64 exts /\
     verifier_text e a cn sn user sp cb = out ++ rest /\
     ((exists x, r = Err (EIo x) /\ new_events s s' [] /\ s_val s' = s_val s) \/
      (exists c, new_events s s' [EvValidate c] /\ offers_scram c user z /\
         (no_zero script -> rest = []) /\
         ((r = Ok (Finished true) /\ s_mech s' = XScramS a (Some SsFinished)) \/
          exists x, r = Err (EValidation x))))) \/
  ((forall cb p64 exts, ~ authenticates e a cn sn header user sp m cb p64 exts) /\
   new_events s s' [] /\ s_val s' = s_val s /\ error_prefix out /\
   forall st, r = Ok st -> st = Finished true /\ s_mech s' = XScramS a (Some SsFinished) /\
     (no_zero script -> error_message out)).
Proof.
  intros Em Hcr H. apply (step_scram_server _ _ _ _ _ _ _ _ _ Em) in H.
  destruct H as [st1 [w' [H [-> ->]]]]. apply server_step2 in H.
  destruct H as [r1 [l1 [H Hr]]].
  apply client_final_handled in H; [|apply Hcr].
  destruct H as [[cb [p64 [exts [Ha H]]]]|[Hno Hrf]].
  - left. unfold bind in H.
    destruct (send_final _ _ _) as [[r2 l2] w2] eqn:Esf in H. apply send_final_any in Esf.
    destruct Esf as [-> [p [q [E [Hw Hr2]]]]].
    cbn [server_final_slices concat] in E. rewrite app_nil_r in E.
    assert (Ep : w_out w2 = p) by (destruct Hw as [-> _]; reflexivity).
    assert (Et : w_trace w2 = s_trace s) by (apply Hw).
    assert (Ev : w_val w2 = s_val s) by (apply Hw).
    exists cb, p64, exts, q. split; [exact Ha|].
    destruct Hr2 as [[-> Hz]|[x ->]].
    + unfold validate in H. rewrite Ev in H.
      destruct (run_validate _ _ _) as [rv slot].
      assert (Hw' : w' = mk_world (w_out w2) (w_script w2)
         (w_trace w2 ++ [EvValidate (scram_server_provider user z)]) (w_rng w2) slot /\
         (r1 = Ok tt \/ exists x, r1 = Err (EValidation x)))
        by (destruct rv; injection H as <- <- <-; split; eauto).
      destruct Hw' as [-> Hr1]. cbn [w_out w_trace w_rng w_val].
      split; [unfold verifier_text; rewrite E, Ep; reflexivity|].
      right. exists (scram_server_provider user z). unfold new_events. cbn [s_trace s_mech].
      split; [rewrite Et; reflexivity|]. split; [apply scram_provider_offers|].
      split; [exact Hz|].
      destruct Hr as [[-> [-> ->]]|[[x [-> [-> ->]]]|[-> [-> ->]]]].
      * left. auto.
      * right. destruct Hr1 as [?|Hr1]; [discriminate|].
        destruct Hr1 as [y Hy]. injection Hy as ->. eauto.
      * destruct Hr1 as [?|[y Hy]]; discriminate.
    + injection H as <- <- <-. destruct Hr as [[? _]|[[y [[= <-] [-> ->]]]|[? _]]]; try discriminate.
      split; [unfold verifier_text; rewrite E, Ep; reflexivity|].
      left. exists x. split; [reflexivity|]. unfold new_events. cbn [s_trace s_val].
      rewrite app_nil_r. auto.
  - right. split; [exact Hno|]. destruct Hrf as [-> [p [Hw [Hp Hm]]]].
    assert (Ep : w_out w' = p) by (destruct Hw as [-> _]; reflexivity).
    unfold new_events. cbn [s_trace s_val s_mech]. rewrite app_nil_r, Ep.
    split; [apply Hw|]. split; [apply Hw|]. split; [exact Hp|].
    intros st ->. destruct Hr as [[-> [[= ->] ->]]|[[x [_ [? _]]]|[_ [? _]]]]; try discriminate.
    split; [reflexivity|]. split; [reflexivity|]. exact (Hm eq_refl).
Qed.

(** The same for an unknown user. *)
Theorem server_second_unknown e s a m script r out s' :
  server_pretends s a ->
  step e s (Some m) script = (r, out, s') ->
  new_events s s' [] /\ s_val s' = s_val s /\
  (exists rest, lit "e=unknown-user" = out ++ rest) /\
  (forall st, r = Ok st -> st = Finished true /\ s_mech s' = XScramS a (Some SsFinished) /\
     (no_zero script -> out = lit "e=unknown-user") /\
     exists cb fn p64 exts, m = final_bare cb fn ++ extensions_text exts ++ lit ",p=" ++ p64).
Proof.
  intros Em H. apply (step_scram_server _ _ _ _ _ _ _ _ _ Em) in H.
  destruct H as [st1 [w' [H [-> ->]]]]. apply server_step2 in H.
  destruct H as [r1 [l1 [H Hr]]]. unfold handle_client_final in H.
  unfold bind at 1, scram_parse at 1, of_res in H. unfold new_events. cbn [s_trace s_val s_mech].
  rewrite app_nil_r.
  destruct (client_final_parse m) as [cl|x|] eqn:Ep; cbn [rmap_err] in H.
  2-3: injection H as <- <- <-; split; [reflexivity|]; split; [reflexivity|];
    split; [exists (lit "e=unknown-user"); reflexivity|];
    intros st ->; destruct Hr as [[? _]|[[y [? [? _]]]|[_ [? _]]]]; discriminate.
  apply send_final_any in H. destruct H as [-> [p [q [E [Hw Hr2]]]]].
  cbn [server_final_slices concat srverr_bytes] in E. rewrite app_nil_r in E.
  assert (Eo : w_out w' = p) by (destruct Hw as [-> _]; reflexivity). rewrite Eo.
  split; [apply Hw|]. split; [apply Hw|]. split; [exists q; exact E|].
  intros st ->. destruct Hr as [[-> [[= ->] ->]]|[[x [_ [? _]]]|[_ [? _]]]]; try discriminate.
  split; [reflexivity|]. split; [reflexivity|]. split.
  - intros Hz. destruct Hr2 as [[_ Hq]|[x ?]]; [|discriminate].
    rewrite (Hq Hz), app_nil_r in E. symmetry. exact E.
  - destruct cl as [cb fn p64]. apply client_final_parse_exact in Ep.
    destruct Ep as [exts [Hm _]]. eauto.
Qed.

(** * The client's final message *)

Lemma parse_digits_utf8 l : forall acc n, parse_digits l acc = Some n -> utf8_valid l = true.
Proof.
  induction l as [|c r IH]; intros acc n H; [reflexivity|]. cbn [parse_digits] in H.
  unfold digit_val in H. destruct (in_range 48 57 c) eqn:E; [|discriminate].
  cbn [utf8_valid]. replace (in_range 0 127 c) with true.
  - destruct (N.leb _ _); [|discriminate]. eauto.
  - symmetry. unfold in_range in *. apply andb_true_iff in E. destruct E as [E1 E2].
    apply N.leb_le in E1, E2. apply andb_true_iff. split; apply N.leb_le; lia.
Qed.
Lemma parse_u32_utf8 l n : parse_u32 l = Some n -> utf8_valid l = true.
Proof.
  destruct l as [|c r]; [reflexivity|]. cbn [parse_u32].
  destruct (beq c "+"%char) eqn:E; [|apply parse_digits_utf8].
  apply beq_eq in E. subst c. intros H.
  assert (Hr : exists acc, parse_digits r acc = Some n) by (destruct r; [discriminate|eauto]).
  destruct Hr as [acc Hr]. apply parse_digits_utf8 in Hr. exact Hr.
Qed.

Lemma keys_ok {L} e a salt n (l : L) w k l' w' :
  client_keys e a salt n l w = (Ok k, l', w') ->
  l' = l /\ exists evs, did evs [] 0 w w' /\ validations evs = [] /\
    keys_from e a evs salt n (fst k) (snd k).
Proof.
  unfold client_keys. cbn zeta. intros H. inv_bind H.
  apply maybe_local in H0.
  2:{ intros v l2 w2. destruct (_ && _); reflexivity. }
  destruct H0 as [evs1 [Hd1 [Hs1 [_ H0]]]].
  assert (El : l0 = l).
  { destruct H0 as [[_ [-> _]]|[v [r [w1 [_ [Hf _]]]]]]; [reflexivity|].
    destruct (_ && _); injection Hf as _ <-; reflexivity. }
  subst l0. destruct a0 as [k1|].
  { injection H as <- <- <-. split; [reflexivity|]. exists evs1. split; [exact Hd1|].
    split; [apply Hs1|]. destruct H0 as [[? _]|[c [r [w1 [Ha [Hf [_ Hg]]]]]]]; [discriminate|].
    rewrite (Hg _ eq_refl) in Hf. destruct (_ && _); [|discriminate]. injection Hf as <-.
    left. exists c. rewrite Ha. cbn. auto. }
  clear H0. inv_bind H. apply maybe_local in H0.
  2:{ intros v l2 w2. destruct v; reflexivity. }
  destruct H0 as [evs2 [Hd2 [Hs2 [_ H0]]]].
  assert (El : l0 = l).
  { destruct H0 as [[_ [-> _]]|[v [r [w2 [_ [Hf _]]]]]]; [reflexivity|].
    destruct v; injection Hf as _ <-; reflexivity. }
  subst l0. destruct a0 as [k2|].
  { injection H as <- <- <-. split; [reflexivity|]. exists (evs1 ++ evs2).
    split; [exact (did_then Hd1 Hd2)|].
    split; [rewrite validations_app, (proj2 Hs1), (proj2 Hs2); reflexivity|].
    destruct H0 as [[? _]|[p [r [w2 [Ha [Hf [_ Hg]]]]]]]; [discriminate|].
    rewrite (Hg _ eq_refl) in Hf. right. left. exists p. rewrite answers_app, Ha.
    destruct p as [|b p]; [discriminate|]. injection Hf as <-.
    split; [apply in_or_app; right; left; reflexivity|]. split; [discriminate|].
    split; reflexivity. }
  clear H0. apply need_local in H; [|intros v l2 w2; reflexivity].
  destruct H as [evs3 [p [w2 [Hd3 [Hs3 [_ [Ha Hf]]]]]]]. injection Hf as <- <-.
  split; [reflexivity|]. exists ((evs1 ++ evs2) ++ evs3).
  split; [exact (did_then (did_then Hd1 Hd2) Hd3)|].
  split; [rewrite !validations_app, (proj2 Hs1), (proj2 Hs2), (proj2 Hs3); reflexivity|].
  right. right. exists p. rewrite !answers_app, Ha.
  split; [apply in_or_app; right; left; reflexivity|]. split; reflexivity.
Qed.

(** handle_server_first after its checks. *)
Definition hsf_answer {L} (e : env) (a : alg) (cb nonce user sn salt64 iters salt : bytes) (n : N)
  : M L wait_sfin :=
  keys <- client_keys e a salt n ;;
  let client_key := fst keys in
  let server_key := snd keys in
  let stored_key := e_hash e a client_key in
  let sigs := compute_signatures e a stored_key server_key user nonce sn salt64 iters cb in
  proof <- exact a (xor_zip client_key (fst sigs)) ;;
  write_all_vectored (client_final_slices (mk_cl cb (nonce ++ sn) (encode proof))) ;;;
  ret (mk_wsfin (snd sigs) client_key server_key salt n).

Theorem server_first_handled {L} e a cb nonce user m (l : L) w r l' w' :
  handle_server_first e a (mk_wsf cb nonce user) m l w = (r, l', w') ->
  ((forall sn salt64 salt iters n, ~ continues m nonce sn salt64 salt iters n) /\
   (forall x, r <> Ok x) /\ l' = l /\ w' = w) \/
  (exists sn salt64 salt iters n, continues m nonce sn salt64 salt iters n /\
     hsf_answer e a cb nonce user sn salt64 iters salt n l w = (r, l', w')).
Proof.
  intros H. unfold handle_server_first in H. unfold bind at 1 in H.
  unfold scram_parse at 1, of_res in H. cbn [ws_cb ws_nonce ws_username] in H.
  assert (Huniq : forall sn salt64 salt iters n, continues m nonce sn salt64 salt iters n ->
            server_first_parse m = Ok (mk_sf (nonce ++ sn) salt64 iters)).
  { intros sn salt64 salt iters n [-> [_ [_ [_ [_ [F1 [F2 F3]]]]]]].
    apply server_first_parse_exact. auto. }
  assert (Hout : forall r : res serr wait_sfin, (forall x, r <> Ok x) ->
     (forall sn salt64 salt iters n, ~ continues m nonce sn salt64 salt iters n) ->
     (r, l, w) = (r, l', w') ->
     (forall sn salt64 salt iters n, ~ continues m nonce sn salt64 salt iters n) /\
     (forall x : wait_sfin, r <> Ok x) /\ l' = l /\ w' = w).
  { intros r0 H1 H2 [= <- <-]. auto. }
  destruct (server_first_parse m) as [sf|x|] eqn:Ep; cbn [rmap_err] in H.
  2-3: left; injection H as <- <- <-; apply Hout; [discriminate| |reflexivity];
    intros sn salt64 salt iters n Hc; specialize (Huniq _ _ _ _ _ Hc); discriminate.
  destruct sf as [fn salt64 iters]. cbn [sf_nonce sf_salt sf_iterations] in H.
  apply server_first_parse_exact in Ep. destruct Ep as [Em [F1 [F2 F3]]].
  assert (Hno : (forall sn salt n, fn = nonce ++ sn -> sn <> [] -> decode salt64 = Some salt ->
       parse_u32 iters = Some n -> n <> 0%N -> False) ->
     forall sn salt64 salt iters n, ~ continues m nonce sn salt64 salt iters n).
  { intros H1 sn salt64' salt iters' n Hc. pose proof (Huniq _ _ _ _ _ Hc) as E.
    injection E as -> -> ->. destruct Hc as [_ [H2 [H3 [H4 [H5 _]]]]]. eauto. }
  destruct (strip_prefix nonce fn) as [sn|] eqn:Es.
  2:{ left. unfold scram_proto, fail in H. injection H as <- <- <-.
      apply Hout; [discriminate| |reflexivity]. apply Hno. intros sn salt n ->.
      rewrite strip_prefix_app in Es. discriminate. }
  apply strip_prefix_iff in Es. subst fn.
  assert (Hnil : sn = [] \/ sn <> []) by (destruct sn; [left; reflexivity|right; discriminate]).
  destruct Hnil as [->|Hnil].
  { left. unfold scram_proto, fail in H. injection H as <- <- <-.
    apply Hout; [discriminate| |reflexivity]. apply Hno. intros sn salt n E.
    rewrite app_nil_r in E. intros Hs. exfalso. apply Hs.
    apply (app_inv_head nonce). rewrite app_nil_r. symmetry. exact E. }
  assert (H' : match from_utf8 iters with
      | None => fail (EMech (MScramParse PeBadUtf8))
      | Some it =>
          match parse_u32 it with
          | None => scram_proto PrIterationCountFormat
          | Some iterations =>
              if N.eqb iterations 0 then scram_proto PrIterationCountZero
              else
                match decode salt64 with
                | None => scram_proto PrBase64Decode
                | Some salt => hsf_answer e a cb nonce user sn salt64 iters salt iterations
                end
          end
      end l w = (r, l', w')).
  { destruct sn; [congruence|]. exact H. }
  clear H. rename H' into H. unfold from_utf8 in H.
  destruct (utf8_valid iters) eqn:Eu.
  2:{ left. unfold scram_proto, fail in H. injection H as <- <- <-.
      apply Hout; [discriminate| |reflexivity]. apply Hno. intros sn' salt n _ _ _ Hp.
      apply parse_u32_utf8 in Hp. congruence. }
  destruct (parse_u32 iters) as [n|] eqn:Epu.
  2:{ left. unfold scram_proto, fail in H. injection H as <- <- <-.
      apply Hout; [discriminate| |reflexivity]. apply Hno. intros sn' salt n _ _ _ Hp.
      congruence. }
  destruct (N.eqb n 0) eqn:En.
  { left. unfold scram_proto, fail in H. injection H as <- <- <-. apply N.eqb_eq in En.
    apply Hout; [discriminate| |reflexivity]. apply Hno. intros sn' salt n' _ _ _ Hp.
    congruence. }
  apply N.eqb_neq in En.
  destruct (decode salt64) as [salt|] eqn:Ed.
  2:{ left. unfold scram_proto, fail in H. injection H as <- <- <-.
      apply Hout; [discriminate| |reflexivity]. apply Hno. intros sn' salt n' _ _ Hp.
      congruence. }
  right. exists sn, salt64, salt, iters, n. split; [|exact H].
  split; [exact Em|]. auto 10.
Qed.

Lemma hsf_answer_ok {L} e a cb nonce user sn salt64 iters salt n (l : L) w ws l' w' :
  hsf_answer e a cb nonce user sn salt64 iters salt n l w = (Ok ws, l', w') ->
  exists evs out ck sk,
    did evs out 0 w w' /\ validations evs = [] /\ keys_from e a evs salt n ck sk /\
    let am := exchange_message user nonce sn salt64 iters cb in
    length (client_proof e a ck am) = hlen a /\
    ws = mk_wsfin (server_signature e a sk am) ck sk salt n /\
    (no_zero (w_script w) ->
     out = final_bare cb (nonce ++ sn) ++ lit ",p=" ++ encode (client_proof e a ck am)).
Proof.
  unfold hsf_answer. intros H. inv_bind H. apply keys_ok in H0.
  destruct H0 as [-> [evs [Hd [Hv Hk]]]]. cbn zeta in H.
  unfold compute_signatures in H. cbn [fst snd] in H. rewrite auth_message_rfc in H.
  fold (exchange_message user nonce sn salt64 iters cb) in H.
  inv_bind H. unfold exact in H0. destruct (Nat.eqb _ _) eqn:El; [|discriminate].
  apply Nat.eqb_eq in El. injection H0 as <- <- <-. inv_bind H. injection H as <- <- <-.
  apply write_all_vectored_ok in H0. destruct H0 as [-> [p [q [_ [_ [Hw Hp]]]]]].
  exists evs, p, (fst a0), (snd a0).
  split; [pose proof (did_trans _ _ _ _ _ _ _ _ _ Hd (did_wrote _ _ _ Hw)) as H1;
          rewrite app_nil_r in H1; exact H1|].
  split; [exact Hv|]. split; [exact Hk|]. cbn zeta. split; [unfold client_proof; rewrite <- xor_zip_text; exact El|]. split; [reflexivity|].
  intros Hz. rewrite (Hp (did_no_zero _ _ _ _ _ Hd Hz)).
  unfold client_final_slices, final_bare, client_proof. rewrite <- ?xor_zip_text. cbn [concat cl_cb cl_nonce cl_proof].
  rewrite app_nil_r, <- !app_assoc. reflexivity.
Qed.

Lemma client_step2 e a ws m w r l' w' :
  scram_client_step e a (Some m) (Some (ScClientFirst ws)) w = (r, l', w') ->
  exists r1 l1, handle_server_first e a ws m (None : option scram_cst) w = (r1, l1, w') /\
    ((exists s, r1 = Ok s /\ r = Ok Running /\ l' = Some (ScServerFirst s)) \/
     (exists x, r1 = Err x /\ r = Err x /\ l' = l1) \/ (r1 = Panic /\ r = Panic /\ l' = l1)).
Proof.
  unfold scram_client_step. intros H. unfold bind at 1, getl in H. unfold bind at 1, setl in H.
  unfold bind at 1 in H. destruct (handle_server_first e a ws m None w) as [[[s|x|] l1] w1];
    injection H as <- <- <-; eauto 10.
Qed.

Theorem client_second e s a cb nonce user m script r out s' :
  client_waits s a cb nonce user ->
  step e s (Some m) script = (r, out, s') ->
  ((forall sn salt64 salt iters n, ~ continues m nonce sn salt64 salt iters n) /\
   (forall st, r <> Ok st) /\ out = [] /\ new_events s s' [] /\ s_val s' = s_val s) \/
  (exists sn salt64 salt iters n, continues m nonce sn salt64 salt iters n /\
     forall st, r = Ok st -> st = Running /\
       exists evs ck sk, new_events s s' evs /\ validations evs = [] /\ s_val s' = s_val s /\
         keys_from e a evs salt n ck sk /\
         let am := exchange_message user nonce sn salt64 iters cb in
         length (client_proof e a ck am) = hlen a /\
         client_expects s' a (server_signature e a sk am) ck sk salt n /\
         (no_zero script ->
          out = final_bare cb (nonce ++ sn) ++ lit ",p=" ++ encode (client_proof e a ck am))).
Proof.
  intros Em H. apply (step_scram_client _ _ _ _ _ _ _ _ _ Em) in H.
  destruct H as [st1 [w' [H [-> ->]]]]. apply client_step2 in H.
  destruct H as [r1 [l1 [H Hr]]]. apply server_first_handled in H.
  destruct H as [[Hno [Hnk [-> ->]]]|[sn [salt64 [salt [iters [n [Hc H]]]]]]].
  - left. split; [exact Hno|]. unfold new_events. cbn [w_out w_trace w_val s_trace s_val].
    rewrite app_nil_r. split; [|auto].
    intros st ->. destruct Hr as [[s0 [-> _]]|[[x [_ [? _]]]|[_ [? _]]]]; try discriminate.
    exact (Hnk s0 eq_refl).
  - right. exists sn, salt64, salt, iters, n. split; [exact Hc|]. intros st ->.
    destruct Hr as [[s0 [-> [[= ->] ->]]]|[[x [_ [? _]]]|[_ [? _]]]]; try discriminate.
    split; [reflexivity|]. apply hsf_answer_ok in H.
    destruct H as [evs [out [ck [sk [Hd [Hv [Hk [Hl [-> Ho]]]]]]]]].
    destruct Hd as [T [O [_ [V _]]]]. cbn [w_trace w_out w_val app] in T, O, V.
    exists evs, ck, sk. split; [exact T|]. split; [exact Hv|]. split; [exact V|].
    split; [exact Hk|]. cbn zeta. split; [exact Hl|]. split; [reflexivity|].
    rewrite O. exact Ho.
Qed.

(** * The client's check of the server *)

Lemma client_step3 e a ws m w r l' w' :
  scram_client_step e a (Some m) (Some (ScServerFirst ws)) w = (r, l', w') ->
  exists r1, handle_server_final e ws m (None : option scram_cst) w = (r1, l', w') /\
    ((r1 = Ok tt /\ r = Ok (Finished false)) \/
     (exists x, r1 = Err x /\ r = Err x) \/ (r1 = Panic /\ r = Panic)).
Proof.
  unfold scram_client_step. intros H. unfold bind at 1, getl in H. unfold bind at 1, setl in H.
  unfold bind at 1 in H. destruct (handle_server_final e ws m None w) as [[[[]|x|] l1] w1];
    injection H as <- <- <-; eauto 10.
Qed.

Lemma salt_provider_offers salt n : offers_salt (scram_client_provider salt n) salt n.
Proof.
  split; [reflexivity|]. split; [reflexivity|]. intros q H1 H2. cbn.
  rewrite !castp_neq by congruence. reflexivity.
Qed.

Lemma ignored_action {L} e q c v (l : L) w r l' w' :
  ignore (action e q c v) l w = (r, l', w') ->
  r = Ok tt /\ l' = l /\ exists evs, Forall (fun ev => ev = EvTaken q) evs /\
    did (EvAction q v c :: evs) [] 0 w w'.
Proof.
  unfold ignore, action. intros H.
  pose proof (run_action_taken q (e_cb e (w_trace w) (e_sd e) c (RAction q)) (Some v)
    (w_trace w ++ [EvAction q v c])) as [evs [Hf Ev]].
  destruct (run_action _ _ _ _) as [[r0 slot] tr]. cbn [snd] in Ev.
  assert (E : (r, l', w') = (Ok tt, l, mk_world (w_out w) (w_script w) tr (w_rng w) (w_val w))).
  { destruct (mask_early r0) as [x|]; [congruence|]. destruct slot; congruence. }
  injection E as -> -> ->. split; [reflexivity|]. split; [reflexivity|].
  exists evs. split; [exact Hf|]. unfold did. cbn [w_trace w_out w_rng w_val w_script].
  rewrite Ev, <- app_assoc, app_nil_r. repeat split. apply script_left_refl.
Qed.

Theorem client_third e s a sig ck sk salt n m script r out s' :
  client_expects s a sig ck sk salt n ->
  step e s (Some m) script = (r, out, s') ->
  out = [] /\ s_val s' = s_val s /\
  ((m = lit "v=" ++ encode sig /\ r = Ok (Finished false) /\
    exists c taken, offers_salt c salt n /\
      Forall (fun ev => ev = EvTaken PScramCachedPassword) taken /\
      new_events s s' (EvAction PScramCachedPassword (mk_cached ck sk) c :: taken)) \/
   (m <> lit "v=" ++ encode sig /\ new_events s s' [] /\ (forall st, r <> Ok st) /\
    (2 <= length m -> exists x, r = Err x) /\
    (forall v, m = lit "v=" ++ encode v -> r = Err EMutualAuthenticationFailed))).
Proof.
  intros Em H. apply (step_scram_client _ _ _ _ _ _ _ _ _ Em) in H.
  destruct H as [st1 [w' [H [-> ->]]]]. apply client_step3 in H.
  destruct H as [r1 [H Hr]]. unfold handle_server_final in H. unfold bind at 1 in H.
  unfold scram_parse at 1, of_res in H.
  cbn [wf_verifier wf_client_key wf_server_key wf_salt wf_iterations] in H.
  assert (Hrf : forall x, w' = mk_world [] script (s_trace s) (s_rng s) (s_val s) -> r1 <> Ok tt ->
     (2 <= length m -> exists x, r1 = Err x) ->
     (forall v, m = lit "v=" ++ encode v -> r1 = Err EMutualAuthenticationFailed) ->
     m <> lit "v=" ++ encode x -> sig = x ->
     w_out w' = [] /\ s_val (mk_session (XScramC a st1) (w_trace w') (w_rng w') (w_val w')) = s_val s /\
     ((m = lit "v=" ++ encode sig /\ r = Ok (Finished false) /\
    exists c taken, offers_salt c salt n /\
      Forall (fun ev => ev = EvTaken PScramCachedPassword) taken /\
      new_events s (mk_session (XScramC a st1) (w_trace w') (w_rng w') (w_val w'))
        (EvAction PScramCachedPassword (mk_cached ck sk) c :: taken)) \/
   (m <> lit "v=" ++ encode sig /\
    new_events s (mk_session (XScramC a st1) (w_trace w') (w_rng w') (w_val w')) [] /\
    (forall st, r <> Ok st) /\
    (2 <= length m -> exists x, r = Err x) /\
    (forall v, m = lit "v=" ++ encode v -> r = Err EMutualAuthenticationFailed)))).
  { intros x -> H1 H2 H3 H4 ->. split; [reflexivity|]. split; [reflexivity|]. right.
    split; [exact H4|]. unfold new_events. cbn. rewrite app_nil_r. split; [reflexivity|].
    destruct Hr as [[-> _]|[[y [-> ->]]|[-> ->]]]; [congruence| |].
    - split; [discriminate|]. split; [eauto|]. intros v E. specialize (H3 v E). congruence.
    - split; [discriminate|]. split; [|intros v E; specialize (H3 v E); discriminate].
      intros E. destruct (H2 E). discriminate. }
  destruct (server_final_parse m) as [sf|x|] eqn:Ep; cbn [rmap_err] in H.
  - apply server_final_parse_inv in Ep.
    destruct Ep as [[v64 [-> Hm]]|[v [-> Hm]]].
    + destruct (decode v64) as [v|] eqn:Ed.
      * destruct (bytes_eqb sig v) eqn:Eb.
        -- apply bytes_eqb_eq in Eb. subst v. apply decode_canonical in Ed. subst v64.
           apply ignored_action in H. destruct H as [-> [_ [evs [Hf Hd]]]].
           destruct Hr as [[_ ->]|[[y [? _]]|[? _]]]; try discriminate.
           destruct Hd as [T [O [_ [V _]]]]. cbn [w_trace w_out w_val app] in T, O, V.
           split; [exact O|]. split; [exact V|]. left. split; [exact Hm|].
           split; [reflexivity|]. exists (scram_client_provider salt n), evs.
           split; [apply salt_provider_offers|]. split; [exact Hf|exact T].
        -- unfold fail in H. injection H as <- _ <-. apply decode_canonical in Ed. subst v64 m.
           apply (Hrf sig); try reflexivity; try discriminate; eauto.
           intros E. apply app_inv_head in E. apply encode_inj in E. subst v.
           assert (bytes_eqb sig sig = true) by (apply bytes_eqb_eq; reflexivity). congruence.
      * unfold scram_proto, fail in H. injection H as <- _ <-. subst m.
        apply (Hrf sig); try reflexivity; try discriminate; eauto.
        -- intros v E. apply app_inv_head in E. subst v64. rewrite decode_encode in Ed. discriminate.
        -- intros E. apply app_inv_head in E. subst v64. rewrite decode_encode in Ed. discriminate.
    + unfold fail in H. injection H as <- _ <-. subst m.
      apply (Hrf sig); try reflexivity; try discriminate; eauto.
  - injection H as <- _ <-.
    apply (Hrf sig); try reflexivity; try discriminate; eauto.
    + intros v ->. rewrite server_final_parse_verifier in Ep. discriminate.
    + intros ->. rewrite server_final_parse_verifier in Ep. discriminate.
  - injection H as <- _ <-.
    apply (Hrf sig); try reflexivity; try discriminate; eauto.
    + intros Hl. unfold server_final_parse in Ep.
      destruct m as [|b1 [|b2 m]]; cbn in Hl; try lia. exfalso. revert Ep. cbn.
      repeat (match goal with |- context [if ?x then _ else _] => destruct x end; try discriminate).
    + intros v ->. rewrite server_final_parse_verifier in Ep. discriminate.
    + intros ->. rewrite server_final_parse_verifier in Ep. discriminate.
Qed.
