(** Lemmas about PLAIN, LOGIN, EXTERNAL and ANONYMOUS. *)
From Coq Require Import Lia.
From Verif Require Import Bytes BytesFacts Utf8 Types World CallbackSpec WorldFacts MonadFacts
  Frame Calm Simple OAuth Scram Gssapi Session Spec_Simple.
Open Scope m_scope.

Lemma contains_nul x : contains nul x = false <-> nul_free x.
Proof. apply contains_not_In. Qed.

(** Every step extends the trace. *)
Lemma step_trace e s input script r out s' :
  step e s input script = (r, out, s') -> exists evs, new_events s s' evs.
Proof.
  unfold step. intros H. apply run_ok in H. destruct H as [m' [w' [H [_ ->]]]].
  pose proof (step_ext e input (s_mech s)
    (mk_world [] script (s_trace s) (s_rng s) (s_val s))) as K.
  rewrite H in K. destruct K as [evs [o [T _]]]. exists evs. exact T.
Qed.

(** One required value, checked and written. *)
Definition nonempty_checked (x : bytes) : M unit unit :=
  match x with
  | [] => fail (EMech (MPlain PlEmpty))
  | _ => if contains nul x then fail (EMech (MPlain PlContainsNull)) else write_all x
  end.

Lemma nonempty_checked_ok x w l' w' u :
  nonempty_checked x tt w = (Ok u, l', w') -> x <> [] /\ nul_free x /\ wrote x w w'.
Proof.
  unfold nonempty_checked. destruct x as [|b r]; [discriminate|].
  destruct (contains nul (b :: r)) eqn:E; [discriminate|].
  intros H. apply write_all_ok in H. split; [discriminate|]. split; [|apply H].
  apply contains_nul. exact E.
Qed.

(** The events of one request. *)
Lemma request_answers q c cs1 v cs2 q' :
  only_closures cs1 -> only_closures cs2 ->
  answers q' ((EvRequest q c :: cs1 ++ [EvAnswer q v]) ++ cs2) = answers q' [EvAnswer q v].
Proof.
  intros H1 H2. rewrite answers_app, answers_request, answers_app.
  rewrite (answers_closures _ _ H1), (answers_closures _ _ H2), app_nil_r. reflexivity.
Qed.
Lemma request_validations q c cs1 v cs2 :
  only_closures cs1 -> only_closures cs2 ->
  validations ((EvRequest q c :: cs1 ++ [EvAnswer q v]) ++ cs2) = [].
Proof.
  intros H1 H2. rewrite validations_app. simpl.
  rewrite validations_app, (validations_closures _ H1), (validations_closures _ H2). reflexivity.
Qed.
Lemma request_did q c cs1 v cs2 p w w1 :
  wrote p (add_events (EvRequest q c :: cs1 ++ [EvAnswer q v]) w) w1 ->
  did ((EvRequest q c :: cs1 ++ [EvAnswer q v]) ++ cs2) p 0 w (add_events cs2 w1).
Proof.
  intros Hw.
  pose proof (did_trans _ _ _ _ _ _ _ _ _ (did_events _ w) (did_wrote _ _ _ Hw)) as D.
  pose proof (did_trans _ _ _ _ _ _ _ _ _ D (did_events cs2 w1)) as D2.
  rewrite !app_nil_r in D2. exact D2.
Qed.

Lemma need_checked e q w l' w' u (Q : pval q = bytes) f :
  (forall v, f v = nonempty_checked (eq_rect _ (fun T => T) v _ Q)) ->
  need_with e q empty_provider f tt w = (Ok u, l', w') ->
  exists v evs, did evs (eq_rect _ (fun T => T) v _ Q) 0 w w' /\
    eq_rect _ (fun T => T) v _ Q <> [] /\ nul_free (eq_rect _ (fun T => T) v _ Q) /\
    answers q evs = [v] /\ (forall q', q' <> q -> answers q' evs = []) /\ validations evs = [].
Proof.
  intros Hf H. apply need_with_ok in H.
  destruct H as [v [cs1 [cs2 [w1 [H1 [H2 [H ->]]]]]]]. rewrite Hf in H.
  apply nonempty_checked_ok in H. destruct H as [Hn [Hz Hw]].
  exists v, ((EvRequest q empty_provider :: cs1 ++ [EvAnswer q v]) ++ cs2).
  split; [|split; [exact Hn|split; [exact Hz|]]].
  - apply request_did. exact Hw.
  - split; [|split; [|apply request_validations; assumption]].
    + rewrite request_answers by assumption. apply answers_answer.
    + intros q' Hq. rewrite request_answers by assumption. apply answers_other. congruence.
Qed.

Definition authzid_checked (z : bytes) : M unit unit :=
  if contains nul z then fail (EMech (MPlain PlContainsNull)) else write_all z.

(** The optional authzid, for any callback: what was written is a prefix of what was
    answered. *)
Lemma maybe_authzid e w o l' w' :
  maybe_need_with e PAuthzId empty_provider authzid_checked tt w = (Ok o, l', w') ->
  exists z evs, did evs z 0 w w' /\ nul_free z /\
    (forall q', q' <> PAuthzId -> answers q' evs = []) /\ validations evs = [] /\
    ((answers PAuthzId evs = [] /\ z = []) \/
     (exists rest : bytes, answers PAuthzId evs = [z ++ rest])).
Proof.
  intros H. apply maybe_need_with_ok in H.
  destruct H as [[-> [-> [cs [Hc ->]]]]|[v [cs1 [cs2 [w1 [r [H1 [H2 [H [-> [Hr Hg]]]]]]]]]]].
  - exists [], (EvRequest PAuthzId empty_provider :: cs). split; [apply did_events|].
    split; [intros []|]. split; [|split; [apply (validations_closures _ Hc)|]].
    + intros. apply (answers_closures _ _ Hc).
    + left. split; [apply (answers_closures PAuthzId _ Hc)|reflexivity].
  - assert (Hres : exists z rest, v = z ++ rest /\ nul_free z /\
       wrote z (add_events (EvRequest PAuthzId empty_provider :: cs1 ++ [EvAnswer PAuthzId v]) w) w1).
    { unfold authzid_checked in H. destruct (contains nul v) eqn:E.
      - injection H as <- <- <-. exists [], v. split; [reflexivity|]. split; [intros []|].
        apply wrote_refl.
      - apply contains_nul in E. apply write_all_results in H.
        destruct H as [_ [[-> Hw]|[x [p [q [-> [Hv Hw]]]]]]].
        + exists v, []. rewrite app_nil_r. auto.
        + exists p, q. split; [exact Hv|]. split; [|exact Hw].
          intros Hi. apply E. rewrite Hv. apply in_or_app; auto. }
    destruct Hres as [z [rest [Hv [Hn Hw]]]].
    exists z, ((EvRequest PAuthzId empty_provider :: cs1 ++ [EvAnswer PAuthzId v]) ++ cs2).
    split; [apply request_did; exact Hw|]. split; [exact Hn|].
    split; [|split; [apply request_validations; assumption|]].
    + intros q' Hq. rewrite request_answers by assumption. apply answers_other. congruence.
    + right. exists rest. rewrite request_answers by assumption.
      rewrite answers_answer, Hv. reflexivity.
Qed.

(** The same for an error-propagating callback: all of it is written. *)
Lemma maybe_authzid_polite e w o l' w' :
  bubbling (e_cb e (w_trace w) (e_sd e) empty_provider (RSatisfy PAuthzId)) ->
  maybe_need_with e PAuthzId empty_provider authzid_checked tt w = (Ok o, l', w') ->
  exists z evs, did evs z 0 w w' /\ nul_free z /\
    (forall q', q' <> PAuthzId -> answers q' evs = []) /\ validations evs = [] /\
    (answers PAuthzId evs = [z] \/ (answers PAuthzId evs = [] /\ z = [])).
Proof.
  intros Hb H. apply (maybe_need_with_polite _ _ _ _ _ _ _ _ _ Hb) in H.
  destruct H as [[-> [-> [cs [Hc ->]]]]|[v [cs [r [Hc [Ha [H Hr]]]]]]].
  - exists [], (EvRequest PAuthzId empty_provider :: cs). split; [apply did_events|].
    split; [intros []|]. split; [|split; [apply (validations_closures _ Hc)|]].
    + intros. apply (answers_closures _ _ Hc).
    + right. split; [apply (answers_closures PAuthzId _ Hc)|reflexivity].
  - unfold authzid_checked in H. destruct (contains nul v) eqn:E.
    { injection H as <- <- <-. discriminate Hr. }
    apply contains_nul in E. apply write_all_results in H.
    destruct H as [_ [[-> Hw]|[x [p [q [-> _]]]]]]; [|discriminate Hr].
    exists v, ((EvRequest PAuthzId empty_provider :: cs ++ [EvAnswer PAuthzId v]) ++ []).
    assert (only_closures []) by constructor.
    split; [rewrite <- (add_events_nil w'); apply request_did; exact Hw|]. split; [exact E|].
    split; [|split; [apply request_validations; assumption|]].
    + intros q' Hq. rewrite request_answers by assumption. apply answers_other. congruence.
    + left. rewrite request_answers by assumption. apply answers_answer.
Qed.

(** The rest of the PLAIN client step. *)
Lemma plain_tail e w l w' st :
  (write_all [nul] ;;;
   need_with e PAuthId empty_provider nonempty_checked ;;;
   write_all [nul] ;;;
   need_with e PPassword empty_provider nonempty_checked ;;;
   ret (Finished true)) tt w = (Ok st, l, w') ->
  exists a p evs, st = Finished true /\ did evs (nul :: a ++ nul :: p) 0 w w' /\
    a <> [] /\ p <> [] /\ nul_free a /\ nul_free p /\ validations evs = [] /\
    answers PAuthId evs = [a] /\ answers PPassword evs = [p] /\ answers PAuthzId evs = [].
Proof.
  intros H. inv_bind H. apply write_all_ok in H0. destruct H0 as [-> H0].
  inv_bind H. destruct l0. apply (need_checked _ PAuthId _ _ _ _ eq_refl) in H1; [|reflexivity].
  destruct H1 as [av [e1 [D1 [Hn1 [Hz1 [A1 [B1 V1]]]]]]].
  inv_bind H. apply write_all_ok in H1. destruct H1 as [-> H1].
  inv_bind H. destruct l0. apply (need_checked _ PPassword _ _ _ _ eq_refl) in H2; [|reflexivity].
  destruct H2 as [pv [e2 [D2 [Hn2 [Hz2 [A2 [B2 V2]]]]]]].
  injection H as <- <- <-. simpl in *.
  exists av, pv, (e1 ++ e2).
  split; [reflexivity|]. split.
  { pose proof (did_trans _ _ _ _ _ _ _ _ _ (did_wrote _ _ _ H0) D1) as D.
    pose proof (did_trans _ _ _ _ _ _ _ _ _ D (did_wrote _ _ _ H1)) as D'.
    pose proof (did_trans _ _ _ _ _ _ _ _ _ D' D2) as D''.
    simpl in D''. rewrite <- !app_assoc in D''. exact D''. }
  split; [exact Hn1|]. split; [exact Hn2|]. split; [exact Hz1|]. split; [exact Hz2|].
  rewrite validations_app, V1, V2, !answers_app, A1, A2.
  rewrite (B2 PAuthId), (B1 PPassword), (B1 PAuthzId), (B2 PAuthzId) by discriminate.
  rewrite app_nil_r. auto.
Qed.

Lemma plain_step_inv e s input script r out s' :
  s_mech s = XPlainC -> step e s input script = (r, out, s') ->
  exists l w', plain_client_step e input tt (mk_world [] script (s_trace s) (s_rng s) (s_val s))
    = (r, l, w') /\ out = w_out w' /\
    s' = mk_session XPlainC (w_trace w') (w_rng w') (w_val w').
Proof.
  intros Hm H. apply run_ok in H. destruct H as [m' [w' [H [-> ->]]]]. rewrite Hm in H.
  unfold mech_step, bind, getl in H. apply on_eq in H. destruct H as [l' [H ->]]. eauto 10.
Qed.

Theorem plain_client_polite e s input script st out s' :
  s_mech s = XPlainC -> polite e ->
  step e s input script = (Ok st, out, s') ->
  exists evs z a p, new_events s s' evs /\ st = Finished true /\
    out = plain_message z a p /\ a <> [] /\ p <> [] /\
    nul_free z /\ nul_free a /\ nul_free p /\
    answers PAuthId evs = [a] /\ answers PPassword evs = [p] /\
    (answers PAuthzId evs = [z] \/ (answers PAuthzId evs = [] /\ z = [])).
Proof.
  intros Hm Hp H. destruct (plain_step_inv _ _ _ _ _ _ _ Hm H) as [l [w' [H0 [-> ->]]]].
  unfold plain_client_step in H0. inv_bind H0. destruct l0.
  apply maybe_authzid_polite in H1; [|apply Hp].
  destruct H1 as [z [e1 [D1 [Hz [B1 [V1 A1]]]]]].
  apply plain_tail in H0.
  destruct H0 as [av [pv [e2 [-> [D2 [Ha [Hpw [Na [Np [V2 [Aa [Ap Az]]]]]]]]]]]].
  pose proof (did_trans _ _ _ _ _ _ _ _ _ D1 D2) as [T [O _]]. simpl in T, O.
  exists (e1 ++ e2), z, av, pv. rewrite !answers_app, Aa, Ap, Az, !B1 by discriminate.
  rewrite app_nil_r. repeat (split; [first [assumption|reflexivity]|]). exact A1.
Qed.

Theorem plain_client_any e s input script st out s' :
  s_mech s = XPlainC ->
  step e s input script = (Ok st, out, s') ->
  exists evs z a p, new_events s s' evs /\ st = Finished true /\
    out = plain_message z a p /\ a <> [] /\ p <> [] /\
    nul_free z /\ nul_free a /\ nul_free p /\
    answers PAuthId evs = [a] /\ answers PPassword evs = [p] /\
    ((answers PAuthzId evs = [] /\ z = []) \/
     exists rest : bytes, answers PAuthzId evs = [z ++ rest]).
Proof.
  intros Hm H. destruct (plain_step_inv _ _ _ _ _ _ _ Hm H) as [l [w' [H0 [-> ->]]]].
  unfold plain_client_step in H0. inv_bind H0. destruct l0.
  apply maybe_authzid in H1.
  destruct H1 as [z [e1 [D1 [Hz [B1 [V1 A1]]]]]].
  apply plain_tail in H0.
  destruct H0 as [av [pv [e2 [-> [D2 [Ha [Hpw [Na [Np [V2 [Aa [Ap Az]]]]]]]]]]]].
  pose proof (did_trans _ _ _ _ _ _ _ _ _ D1 D2) as [T [O _]]. simpl in T, O.
  exists (e1 ++ e2), z, av, pv. rewrite !answers_app, Aa, Ap, Az, !B1 by discriminate.
  rewrite app_nil_r. repeat (split; [first [assumption|reflexivity]|]). exact A1.
Qed.

Lemma in_singleton {A} (x y : A) : In x [y] -> x = y.
Proof. intros [H|[]]; auto. Qed.

Theorem plain_client_refuses e s input script r out s' evs :
  s_mech s = XPlainC -> step e s input script = (r, out, s') -> new_events s s' evs ->
  (exists a : bytes, In a (answers PAuthId evs) /\ (a = [] \/ In nul a)) \/
  (exists p : bytes, In p (answers PPassword evs) /\ (p = [] \/ In nul p)) \/
  (polite e /\ exists z : bytes, In z (answers PAuthzId evs) /\ In nul z) ->
  exists x, r = Err x.
Proof.
  intros Hm H Hev Hbad. destruct r as [st|x|]; [|eauto|].
  - exfalso. destruct Hbad as [[a [Ha Hb]]|[[p [Hp Hb]]|[Hpol [z [Hz Hb]]]]].
    + destruct (plain_client_any _ _ _ _ _ _ _ Hm H)
        as [evs' [z [a' [p [Hev' [_ [_ [Hn [_ [_ [Hna [_ [Aa _]]]]]]]]]]]]].
      assert (evs' = evs) by (unfold new_events in *; rewrite Hev in Hev'; apply app_inv_head in Hev'; auto).
      subst evs'. rewrite Aa in Ha. apply in_singleton in Ha. subst a'.
      destruct Hb as [->|Hb]; [apply Hn; reflexivity|exact (Hna Hb)].
    + destruct (plain_client_any _ _ _ _ _ _ _ Hm H)
        as [evs' [z [a' [p' [Hev' [_ [_ [_ [Hn [_ [_ [Hna [_ [Ap _]]]]]]]]]]]]]].
      assert (evs' = evs) by (unfold new_events in *; rewrite Hev in Hev'; apply app_inv_head in Hev'; auto).
      subst evs'. rewrite Ap in Hp. apply in_singleton in Hp. subst p'.
      destruct Hb as [->|Hb]; [apply Hn; reflexivity|exact (Hna Hb)].
    + destruct (plain_client_polite _ _ _ _ _ _ _ Hm Hpol H)
        as [evs' [z' [a' [p' [Hev' [_ [_ [_ [_ [Hnz [_ [_ [_ [_ Az]]]]]]]]]]]]]].
      assert (evs' = evs) by (unfold new_events in *; rewrite Hev in Hev'; apply app_inv_head in Hev'; auto).
      subst evs'. destruct Az as [Az|[Az _]]; rewrite Az in Hz; [|destruct Hz].
      apply in_singleton in Hz. subst z'. exact (Hnz Hb).
  - exfalso. destruct (plain_step_inv _ _ _ _ _ _ _ Hm H) as [l [w' [H0 _]]].
    unfold step, run in H.
    pose proof (step_calm e input XPlainC (mk_world [] script (s_trace s) (s_rng s) (s_val s)) eq_refl) as K.
    rewrite Hm in H. destruct (mech_step e input XPlainC _) as [[r m'] w2]. simpl in K. congruence.
Qed.

(** With good values and a writer that takes everything the client succeeds. *)
Lemma checked_sent e q (f : pval q -> M unit unit) (v : pval q) (x : bytes) w :
  f v = nonempty_checked x -> provides e q v ->
  x <> [] -> nul_free x -> w_script w = [] ->
  exists evs, need_with e q empty_provider f tt w = (Ok tt, tt, add_out x (add_events evs w)).
Proof.
  intros Hf Hp Hx Hn Hs.
  destruct (maybe_need_with_provides e q _ empty_provider f tt w Hp) as [cs [_ E]].
  rewrite Hf in E.
  assert (K : forall w', w_script w' = [] ->
    nonempty_checked x tt w' = (Ok tt, tt, add_out x w')).
  { intros w' Hs'. unfold nonempty_checked. destruct x as [|b r]; [congruence|].
    apply contains_nul in Hn. rewrite Hn. apply write_all_full. exact Hs'. }
  rewrite K in E by exact Hs. eexists. unfold need_with. rewrite (bind_step _ _ _ _ _ _ _ E).
  reflexivity.
Qed.

Theorem plain_client_complete e s input o a p :
  s_mech s = XPlainC ->
  provides e PAuthId a -> provides e PPassword p -> answers_with e PAuthzId o ->
  a <> [] -> p <> [] -> nul_free a -> nul_free p -> (forall z : bytes, o = Some z -> nul_free z) ->
  exists s', step e s input []
    = (Ok (Finished true), plain_message (match o with Some z => z | None => [] end) a p, s').
Proof.
  intros Hm Ha Hp Ho Na Np Fa Fp Fz.
  set (w := mk_world [] [] (s_trace s) (s_rng s) (s_val s)).
  assert (E1 : exists evs, exists u, maybe_need_with e PAuthzId empty_provider (fun authzid : bytes =>
    if contains nul authzid then fail (EMech (MPlain PlContainsNull))
    else write_all authzid) tt w
    = (Ok u, tt, add_out (match o with Some z => z | None => [] end) (add_events evs w))).
  { destruct o as [z|]; cbn [answers_with] in Ho.
    - destruct (maybe_need_with_provides e PAuthzId z empty_provider (fun authzid : bytes =>
        if contains nul authzid then fail (EMech (MPlain PlContainsNull))
        else write_all authzid) tt w Ho) as [cs [_ E]].
      pose proof (proj2 (contains_nul z) (Fz z eq_refl)) as Ez. rewrite Ez in E.
      rewrite write_all_full in E by reflexivity. eauto.
    - destruct (maybe_need_with_withholds e PAuthzId empty_provider (fun authzid : bytes =>
        if contains nul authzid then fail (EMech (MPlain PlContainsNull))
        else write_all authzid) tt w Ho) as [cs [_ E]].
      eexists _, None. rewrite add_out_nil. exact E. }
  destruct E1 as [ev1 [u E1]].
  unfold step, run, mech_step. rewrite Hm. unfold bind, getl, on. fold w.
  unfold plain_client_step.
  rewrite (bind_step _ _ _ _ _ _ _ E1).
  match goal with |- context [bind (write_all [nul]) _ tt ?w2] =>
    rewrite (bind_step _ _ _ _ _ _ _ (write_all_full [nul] tt w2 eq_refl)) end.
  match goal with |- context [bind (need_with e PAuthId _ _) _ tt ?w2] =>
    destruct (checked_sent e PAuthId (fun authid : bytes =>
      match authid with
      | [] => fail (EMech (MPlain PlEmpty))
      | _ => if contains nul authid then fail (EMech (MPlain PlContainsNull))
             else write_all authid
      end) a a w2 eq_refl Ha Na Fa eq_refl) as [ev2 E2] end.
  rewrite (bind_step _ _ _ _ _ _ _ E2).
  match goal with |- context [bind (write_all [nul]) _ tt ?w2] =>
    rewrite (bind_step _ _ _ _ _ _ _ (write_all_full [nul] tt w2 eq_refl)) end.
  match goal with |- context [bind (need_with e PPassword _ _) _ tt ?w2] =>
    destruct (checked_sent e PPassword (fun authid : bytes =>
      match authid with
      | [] => fail (EMech (MPlain PlEmpty))
      | _ => if contains nul authid then fail (EMech (MPlain PlContainsNull))
             else write_all authid
      end) p p w2 eq_refl Hp Np Fp eq_refl) as [ev3 E3] end.
  rewrite (bind_step _ _ _ _ _ _ _ E3). unfold ret. eexists.
  cbn [add_out add_events w_out w]. unfold plain_message. rewrite <- !app_assoc. reflexivity.
Qed.

(** * Servers that only validate *)

(** Running the validate callback at the end of a server step. *)
Lemma validate_end e c w :
  exists r v, (@validate unit e c ;;; ret (Finished false)) tt w =
     (r, tt, mk_world (w_out w) (w_script w) (w_trace w ++ [EvValidate c]) (w_rng w) v) /\
  validated r.
Proof.
  unfold bind, validate. destruct (run_validate _ _ _) as [[x|] slot].
  - exists (Err (EValidation x)), slot. split; [reflexivity|]. right; eauto.
  - exists (Ok (Finished false)), slot. split; [reflexivity|]. left; reflexivity.
Qed.

Lemma plain_split_some input z a p :
  plain_split input = Some (z, a, p) <->
  input = plain_message z a p /\ 4 <= length input /\ nul_free z /\ nul_free a /\ nul_free p.
Proof.
  unfold plain_split, nul_free. pose proof (sep_is_beq nul : sep_is is_nul nul) as Hs.
  destruct (Nat.ltb_spec (length input) 4) as [Hl|Hl].
  - split; [discriminate|]. intros [_ [H _]]. lia.
  - split.
    + intros H.
      assert (E : split is_nul input = [z; a; p]).
      { destruct (split is_nul input) as [|x1 [|x2 [|x3 [|]]]]; congruence. }
      apply (split_iff _ _ _ _ Hs) in E. destruct E as [_ [F ->]].
      inversion F as [|? ? F1 F']; subst. inversion F' as [|? ? F2 F'']; subst.
      inversion F'' as [|? ? F3 _]; subst. split; [reflexivity|]. auto.
    + intros [-> [_ [H1 [H2 H3]]]].
      replace (split is_nul (plain_message z a p)) with [z; a; p]; [reflexivity|].
      symmetry. apply (split_iff _ _ _ _ Hs). split; [discriminate|]. split; [|reflexivity].
      repeat constructor; assumption.
Qed.

Lemma plain_message_inj z a p z' a' p' :
  nul_free z -> nul_free a -> nul_free z' -> nul_free a' ->
  plain_message z a p = plain_message z' a' p' -> z = z' /\ a = a' /\ p = p'.
Proof.
  intros H1 H2 H3 H4 H. unfold plain_message in H.
  apply app_sep_inj in H; [|assumption..]. destruct H as [-> H].
  apply app_sep_inj in H; [|assumption..]. destruct H as [-> ->]. auto.
Qed.

Lemma plain_provider_offers z a p : offers_plain (plain_provider a z p) z a p.
Proof.
  repeat split; try reflexivity. intros q H1 H2 H3. unfold plain_provider.
  cbn [get_ref mk_entry]. rewrite !castp_neq by congruence. reflexivity.
Qed.

Theorem plain_server_exact e s msg script r out s' :
  s_mech s = XPlainS -> step e s (Some msg) script = (r, out, s') ->
  out = [] /\
  ((exists z a p c, plain_accepts e msg z a p /\ new_events s s' [EvValidate c] /\
      offers_plain c z a p /\ validated r) \/
   ((forall z a p, ~ plain_accepts e msg z a p) /\ new_events s s' [] /\
      exists x, r = Err (EMech (MPlain x)))).
Proof.
  intros Hm H. apply run_ok in H. destruct H as [m' [w' [H [-> ->]]]]. rewrite Hm in H.
  unfold mech_step, bind, getl in H. apply on_eq in H. destruct H as [l' [H _]].
  set (w := mk_world [] script (s_trace s) (s_rng s) (s_val s)) in *.
  assert (Hno : forall x, (forall z a p, ~ plain_accepts e msg z a p) ->
     fail (EMech (MPlain x)) tt w = (r, l', w') ->
     w_out w' = [] /\ ((exists z a p c, plain_accepts e msg z a p /\
        new_events s (mk_session m' (w_trace w') (w_rng w') (w_val w')) [EvValidate c] /\
        offers_plain c z a p /\ validated r) \/
       ((forall z a p, ~ plain_accepts e msg z a p) /\
        new_events s (mk_session m' (w_trace w') (w_rng w') (w_val w')) [] /\
        exists x, r = Err (EMech (MPlain x))))).
  { intros x Hx [= <- <- <-]. split; [reflexivity|]. right. split; [exact Hx|].
    split; [unfold new_events; simpl; rewrite app_nil_r; reflexivity|eauto]. }
  assert (Hyes : forall z a p, plain_accepts e msg z a p ->
     (@validate unit e (plain_provider a z p) ;;; ret (Finished false)) tt w = (r, l', w') ->
     w_out w' = [] /\ ((exists z a p c, plain_accepts e msg z a p /\
        new_events s (mk_session m' (w_trace w') (w_rng w') (w_val w')) [EvValidate c] /\
        offers_plain c z a p /\ validated r) \/
       ((forall z a p, ~ plain_accepts e msg z a p) /\
        new_events s (mk_session m' (w_trace w') (w_rng w') (w_val w')) [] /\
        exists x, r = Err (EMech (MPlain x))))).
  { intros z a p Hx Hv.
    destruct (validate_end e (plain_provider a z p) w) as [r1 [v [E Hr]]].
    rewrite E in Hv. injection Hv as <- <- <-. split; [reflexivity|]. left.
    exists z, a, p, (plain_provider a z p). split; [exact Hx|]. split; [reflexivity|].
    split; [apply plain_provider_offers|exact Hr]. }
  unfold plain_server_step in H. destruct (plain_split msg) as [[[z a] p]|] eqn:Es.
  - apply plain_split_some in Es. destruct Es as [Em [Hl [Hz [Ha Hp]]]].
    (* what acceptance means for this message *)
    assert (Hinv : forall z' a' p', plain_accepts e msg z' a' p' ->
       z' = z /\ utf8_valid z = true /\ utf8_valid a = true /\ prepared e a a' /\
       prepared_password e p p').
    { intros z' a' p' [a0 [p0 [Em' [_ [Nz [Na [Np [Uz [Ua [Pa Pp]]]]]]]]]].
      rewrite Em in Em'. apply plain_message_inj in Em'; [|assumption..].
      destruct Em' as [<- [<- <-]]. auto. }
    unfold from_utf8 in H. destruct (utf8_valid z) eqn:Uz.
    2:{ eapply Hno; [|exact H]. intros z' a' p' K. apply Hinv in K. intuition congruence. }
    destruct (utf8_valid a) eqn:Ua.
    2:{ eapply Hno; [|exact H]. intros z' a' p' K. apply Hinv in K. intuition congruence. }
    destruct (e_saslprep e a) as [[|b0 r0]|] eqn:Sa.
    + eapply Hno; [|exact H]. intros z' a' p' K. apply Hinv in K.
      destruct K as [_ [_ [_ [[K1 K2] _]]]]. congruence.
    + destruct (utf8_valid p) eqn:Up.
      * destruct (e_saslprep e p) as [[|b1 r1]|] eqn:Sp.
        -- eapply Hno; [|exact H]. intros z' a' p' K. apply Hinv in K.
           destruct K as [_ [_ [_ [_ K]]]]. unfold prepared_password in K. rewrite Up in K.
           destruct K. congruence.
        -- eapply Hyes; [|exact H]. exists a, p. unfold prepared_password, prepared. rewrite Up.
           repeat split; auto; discriminate.
        -- eapply Hno; [|exact H]. intros z' a' p' K. apply Hinv in K.
           destruct K as [_ [_ [_ [_ K]]]]. unfold prepared_password in K. rewrite Up in K.
           destruct K. congruence.
      * destruct p as [|b1 r1].
        -- eapply Hno; [|exact H]. intros z' a' p' K. apply Hinv in K.
           destruct K as [_ [_ [_ [_ K]]]]. unfold prepared_password in K. rewrite Up in K.
           destruct K. congruence.
        -- eapply Hyes; [|exact H]. exists a, (b1 :: r1).
           unfold prepared_password, prepared. rewrite Up. repeat split; auto; discriminate.
    + eapply Hno; [|exact H]. intros z' a' p' K. apply Hinv in K.
      destruct K as [_ [_ [_ [[K1 K2] _]]]]. congruence.
  - eapply Hno; [|exact H]. intros z' a' p' [a0 [p0 [E1 [E2 [E3 [E4 [E5 _]]]]]]].
    assert (plain_split msg = Some (z', a0, p0)) by (apply plain_split_some; auto).
    congruence.
Qed.

Theorem plain_server_needs_input e s script :
  s_mech s = XPlainS -> step e s None script = (Err EInputDataRequired, [], s).
Proof.
  intros Hm. destruct s as [m tr n v]. simpl in Hm. subst m. reflexivity.
Qed.

Theorem plain_roundtrip ec sc input script st msg sc' es ss script2 r out ss' :
  s_mech sc = XPlainC -> polite ec ->
  step ec sc input script = (Ok st, msg, sc') ->
  s_mech ss = XPlainS ->
  step es ss (Some msg) script2 = (r, out, ss') ->
  exists evs z a p, new_events sc sc' evs /\
    answers PAuthId evs = [a] /\ answers PPassword evs = [p] /\
    (answers PAuthzId evs = [z] \/ (answers PAuthzId evs = [] /\ z = [])) /\
    out = [] /\
    (utf8_valid z = true -> utf8_valid a = true ->
     (exists a' p' c, prepared es a a' /\ prepared_password es p p' /\
        new_events ss ss' [EvValidate c] /\ offers_plain c z a' p' /\ validated r) \/
     ((~ exists a' p', prepared es a a' /\ prepared_password es p p') /\
        new_events ss ss' [] /\ exists x, r = Err (EMech (MPlain x)))).
Proof.
  intros Hm Hp Hc Hms Hs.
  destruct (plain_client_polite _ _ _ _ _ _ _ Hm Hp Hc)
    as [evs [z [a [p [Hev [_ [-> [Ha [Hpp [Nz [Na [Np [Aa [Ap Az]]]]]]]]]]]]]].
  exists evs, z, a, p. repeat (split; [assumption|]).
  destruct (plain_server_exact _ _ _ _ _ _ _ Hms Hs) as [-> HH].
  split; [reflexivity|]. intros Uz Ua.
  destruct HH as [[z' [a' [p' [c [Hacc [He [Ho Hv]]]]]]]|[Hno [He Hx]]].
  - left. destruct Hacc as [a0 [p0 [Em' [_ [Nz' [Na' [Np' [_ [_ [Pa Pp]]]]]]]]]].
    apply plain_message_inj in Em'; [|assumption..]. destruct Em' as [<- [<- <-]]. eauto 10.
  - right. split; [|auto]. intros [a' [p' [Pa Pp]]]. apply (Hno z a' p').
    exists a, p. repeat split; auto; try apply Pa.
    unfold plain_message. rewrite !app_length. simpl. rewrite app_length. simpl.
    destruct a; [congruence|]. destruct p; [congruence|]. simpl. lia.
Qed.

(** * LOGIN *)

Lemma login_provider_offers a p : offers_login (login_provider a p) a p.
Proof.
  repeat split; try reflexivity. intros q H1 H2. unfold login_provider.
  cbn [get_ref mk_entry]. rewrite !castp_neq by congruence. reflexivity.
Qed.

(** A required value that is simply written, by a callback that provides it. *)
Lemma need_written e q (v : bytes) (Q : pval q = bytes) (f : pval q -> M login_cst unit) l w :
  w_script w = [] ->
  (forall x, f x = write_all (eq_rect _ (fun T => T) x _ Q)) ->
  forall v, provides e q v ->
  exists cs, only_closures cs /\
    need_with e q empty_provider f l w =
    (Ok tt, l, add_out (eq_rect _ (fun T => T) v _ Q)
                 (add_events (EvRequest q empty_provider :: cs ++ [EvAnswer q v]) w)).
Proof.
  intros Hs Hf v0 Hp.
  destruct (need_with_provides e q v0 empty_provider f l w tt l Hp) as [cs [w1 [Hc [E1 E2]]]].
  { intros cs _. rewrite Hf, write_all_full by assumption. eauto. }
  exists cs. split; [assumption|]. rewrite E2.
  rewrite Hf, write_all_full in E1 by assumption. injection E1 as <-. reflexivity.
Qed.

Lemma step_eq e s input script m :
  s_mech s = m ->
  step e s input script =
  match mech_step e input m (mk_world [] script (s_trace s) (s_rng s) (s_val s)) with
  | (r, mech', w') => (r, w_out w', mk_session mech' (w_trace w') (w_rng w') (w_val w'))
  end.
Proof. intros <-. reflexivity. Qed.

Lemma login_server_wait e tr n v st script :
  st = LsUser \/ (exists u, st = LsPass u) ->
  step e (mk_session (XLoginS st) tr n v) None script
  = (Err EInputDataRequired, [], mk_session (XLoginS st) tr n v).
Proof. intros [->|[u ->]]; reflexivity. Qed.

Lemma idle_fixed e s :
  (forall script r out s', step e s None script = (r, out, s') -> s' = s) ->
  forall s', idle e s s' -> s' = s.
Proof.
  intros H s' I. induction I as [s|s s1 s2 script out E I IH]; [reflexivity|].
  apply H in E. subst s1. apply IH. exact H.
Qed.

Theorem login_exchange ec es sc ss a p :
  s_mech sc = XLoginC LcAuthid -> s_mech ss = XLoginS LsNew ->
  provides ec PAuthId a -> provides ec PPassword p -> utf8_valid a = true ->
  forall i0 i1 i2,
  exists s1 s2 c1 c2,
    step es ss i0 [] = (Ok Running, lit "User Name" ++ [nul], s1) /\
    step ec sc i1 [] = (Ok Running, a, c1) /\
    (forall s1', idle es s1 s1' ->
       step es s1' (Some a) [] = (Ok Running, lit "Password" ++ [nul], s2)) /\
    step ec c1 i2 [] = (Ok (Finished true), p, c2) /\
    (forall s2' r out s3, idle es s2 s2' -> step es s2' (Some p) [] = (r, out, s3) ->
       exists c, new_events ss s3 [EvValidate c] /\ offers_login c a p /\
         out = [] /\ validated r /\
         (r = Ok (Finished false) -> forall i script,
            step es s3 i script = (Err EMechanismDone, [], s3))) /\
    (forall i script, step ec c2 i script = (Err EMechanismDone, [], c2)).
Proof.
  intros Hc Hs Ha Hp Hu i0 i1 i2.
  destruct ss as [ms ts ns vs], sc as [mc tc nc vc]. simpl in Hc, Hs. subst ms mc.
  set (wc := mk_world [] [] tc nc vc).
  destruct (need_written ec PAuthId a eq_refl (fun x : bytes => write_all x) LcAuthid wc
              eq_refl (fun _ => eq_refl) a Ha) as [cs1 [_ E1]]. simpl in E1.
  set (tc1 := tc ++ EvRequest PAuthId empty_provider :: cs1 ++ [EvAnswer PAuthId a]).
  set (wc1 := mk_world [] [] tc1 nc vc).
  destruct (need_written ec PPassword p eq_refl (fun x : bytes => write_all x) LcPassword wc1
              eq_refl (fun _ => eq_refl) p Hp) as [cs2 [_ E2]]. simpl in E2.
  set (tc2 := tc1 ++ EvRequest PPassword empty_provider :: cs2 ++ [EvAnswer PPassword p]).
  exists (mk_session (XLoginS LsUser) ts ns vs), (mk_session (XLoginS (LsPass a)) ts ns vs),
    (mk_session (XLoginC LcPassword) tc1 nc vc), (mk_session (XLoginC LcDone) tc2 nc vc).
  split; [|split; [|split; [|split; [|split]]]].
  - rewrite (step_eq _ _ _ _ (XLoginS LsNew)) by reflexivity.
    unfold mech_step, bind, getl, on, login_server_step, bind, getl, setl, ret.
    simpl s_trace. simpl s_rng. simpl s_val.
    rewrite write_all_full by reflexivity. reflexivity.
  - rewrite (step_eq _ _ _ _ (XLoginC LcAuthid)) by reflexivity.
    unfold mech_step, bind, getl, on, login_client_step, bind, getl, setl, ret.
    simpl s_trace. simpl s_rng. simpl s_val. fold wc. rewrite E1. reflexivity.
  - intros s1' I. apply idle_fixed in I.
    2:{ intros script r out s'. rewrite login_server_wait by auto. congruence. }
    subst s1'. rewrite (step_eq _ _ _ _ (XLoginS LsUser)) by reflexivity.
    unfold mech_step, bind, getl, on, login_server_step, bind, getl, setl, ret.
    simpl s_trace. simpl s_rng. simpl s_val. rewrite (from_utf8_valid _ Hu).
    rewrite write_all_full by reflexivity. reflexivity.
  - rewrite (step_eq _ _ _ _ (XLoginC LcPassword)) by reflexivity.
    unfold mech_step, bind, getl, on, login_client_step, bind, getl, setl, ret.
    simpl s_trace. simpl s_rng. simpl s_val. fold wc1. rewrite E2. reflexivity.
  - intros s2' r out s3 I H. apply idle_fixed in I.
    2:{ intros script r' out' s'. rewrite login_server_wait by eauto. congruence. }
    subst s2'. rewrite (step_eq _ _ _ _ (XLoginS (LsPass a))) in H by reflexivity.
    unfold mech_step, bind, getl, on, login_server_step, bind, getl, setl, ret, validate in H.
    simpl w_trace in H. simpl w_val in H. simpl s_trace in H. simpl s_rng in H. simpl s_val in H.
    exists (login_provider a p).
    destruct (run_validate _ _ _) as [[x|] slot]; injection H as <- <- <-.
    + split; [reflexivity|]. split; [apply login_provider_offers|]. split; [reflexivity|].
      split; [right; eauto|]. discriminate.
    + split; [reflexivity|]. split; [apply login_provider_offers|]. split; [reflexivity|].
      split; [left; reflexivity|]. intros _ i script. reflexivity.
  - intros i script. reflexivity.
Qed.

(** Not UTF-8: refused before the password is even asked for. *)
Theorem login_bad_utf8 e tr n v x script :
  utf8_valid x = false ->
  step e (mk_session (XLoginS LsUser) tr n v) (Some x) script
  = (Err (EMech MLoginUtf8), [], mk_session (XLoginS LsUser) tr n v).
Proof.
  intros H. apply from_utf8_none in H. unfold step, run, mech_step, bind, getl, on.
  unfold login_server_step, bind, getl. cbn [s_mech]. rewrite H. reflexivity.
Qed.

(** * EXTERNAL and ANONYMOUS *)

(** What either client does: ask for an optional value and write it. *)
Definition token_client (e : env) (q : prop) (Q : pval q = bytes) : M unit state :=
  maybe_need_with e q empty_provider
    (fun v => write_all (eq_rect _ (fun T => T) v _ Q)) ;;; ret (Finished true).

Lemma token_client_ok e q (Q : pval q = bytes) w st l' w' :
  bubbling (e_cb e (w_trace w) (e_sd e) empty_provider (RSatisfy q)) ->
  token_client e q Q tt w = (Ok st, l', w') ->
  st = Finished true /\ exists evs,
    ((exists v, answers q evs = [v] /\ did evs (eq_rect _ (fun T => T) v _ Q) 0 w w') \/
     (answers q evs = [] /\ did evs [] 0 w w')).
Proof.
  intros Hb H. unfold token_client in H. inv_bind H. injection H as <- -> ->.
  split; [reflexivity|].
  apply (maybe_need_with_polite _ _ _ _ _ _ _ _ _ Hb) in H0.
  destruct H0 as [[-> [-> [cs [Hc ->]]]]|[v [cs [r [Hc [Ha [H Hr]]]]]]].
  - exists (EvRequest q empty_provider :: cs). right. split; [apply (answers_closures _ _ Hc)|].
    apply did_events.
  - apply write_all_results in H. destruct H as [_ [[-> Hw]|[x [p [q' [-> _]]]]]]; [|discriminate Hr].
    exists ((EvRequest q empty_provider :: cs ++ [EvAnswer q v]) ++ []). left. exists v.
    assert (only_closures []) by constructor.
    split; [rewrite request_answers by assumption; apply answers_answer|].
    rewrite <- (add_events_nil w'). apply request_did. exact Hw.
Qed.

Lemma token_client_full e q (Q : pval q = bytes) o w :
  w_script w = [] -> answers_with e q o ->
  exists evs, token_client e q Q tt w =
    (Ok (Finished true), tt,
     add_out (match o with Some v => eq_rect _ (fun T => T) v _ Q | None => [] end)
       (add_events evs w)) /\
    answers q evs = match o with Some v => [v] | None => [] end.
Proof.
  intros Hs Ha. unfold token_client, bind. destruct o as [v|]; simpl in Ha.
  - destruct (maybe_need_with_provides e q v empty_provider
      (fun v => write_all (eq_rect _ (fun T => T) v _ Q)) tt w Ha) as [cs [Hc E]].
    rewrite E, write_all_full by assumption. simpl polite_result.
    eexists. split; [reflexivity|].
    pose proof (request_answers q empty_provider cs v [] q Hc) as K. rewrite app_nil_r in K.
    rewrite K by constructor. apply answers_answer.
  - destruct (maybe_need_with_withholds e q empty_provider
      (fun v => write_all (eq_rect _ (fun T => T) v _ Q)) tt w Ha) as [cs [Hc E]].
    rewrite E. exists (EvRequest q empty_provider :: cs). rewrite add_out_nil.
    split; [reflexivity|]. apply (answers_closures _ _ Hc).
Qed.

Lemma external_client_token e i : external_client_step e i = token_client e PAuthzId eq_refl.
Proof. reflexivity. Qed.
Lemma anonymous_client_token e i :
  anonymous_client_step e i = token_client e PAnonymousToken eq_refl.
Proof. reflexivity. Qed.

Theorem external_client_ok e s input script st out s' :
  s_mech s = XExternalC -> polite e -> step e s input script = (Ok st, out, s') ->
  st = Finished true /\ exists evs, new_events s s' evs /\
    (answers PAuthzId evs = [out] \/ (answers PAuthzId evs = [] /\ out = [])).
Proof.
  intros Hm Hp H. apply run_ok in H. destruct H as [m' [w' [H [-> ->]]]]. rewrite Hm in H.
  unfold mech_step, bind, getl in H. apply on_eq in H. destruct H as [l' [H _]].
  rewrite external_client_token in H. apply token_client_ok in H; [|apply Hp].
  destruct H as [-> [evs [[v [A D]]|[A D]]]]; (split; [reflexivity|]);
    exists evs; destruct D as [T [O _]]; simpl in T, O; rewrite O.
  - split; [exact T|]. left. exact A.
  - split; [exact T|]. right. auto.
Qed.
Theorem anonymous_client_ok e s input script st out s' :
  s_mech s = XAnonymousC -> polite e -> step e s input script = (Ok st, out, s') ->
  st = Finished true /\ exists evs, new_events s s' evs /\
    (answers PAnonymousToken evs = [out] \/ (answers PAnonymousToken evs = [] /\ out = [])).
Proof.
  intros Hm Hp H. apply run_ok in H. destruct H as [m' [w' [H [-> ->]]]]. rewrite Hm in H.
  unfold mech_step, bind, getl in H. apply on_eq in H. destruct H as [l' [H _]].
  rewrite anonymous_client_token in H. apply token_client_ok in H; [|apply Hp].
  destruct H as [-> [evs [[v [A D]]|[A D]]]]; (split; [reflexivity|]);
    exists evs; destruct D as [T [O _]]; simpl in T, O; rewrite O.
  - split; [exact T|]. left. exact A.
  - split; [exact T|]. right. auto.
Qed.

Lemma this_provider_offers q v : offers_only (this_provider q v) q v.
Proof.
  split; cbn [this_provider get_ref mk_entry]; [rewrite castp_refl; reflexivity|].
  intros q' H. rewrite castp_neq by congruence. reflexivity.
Qed.

Theorem external_server_exact e s input script r out s' :
  s_mech s = XExternalS -> step e s input script = (r, out, s') ->
  out = [] /\
  if utf8_valid (unwrap_or_empty input)
  then exists c, new_events s s' [EvValidate c] /\
         offers_only c PAuthzId (unwrap_or_empty input) /\ validated r
  else new_events s s' [] /\ r = Err (EMech MExternalUtf8).
Proof.
  intros Hm H. apply run_ok in H. destruct H as [m' [w' [H [-> ->]]]]. rewrite Hm in H.
  unfold mech_step, bind, getl in H. apply on_eq in H. destruct H as [l' [H _]].
  unfold external_server_step, from_utf8 in H.
  destruct (utf8_valid (unwrap_or_empty input)).
  - destruct (validate_end e (this_provider PAuthzId (unwrap_or_empty input))
                (mk_world [] script (s_trace s) (s_rng s) (s_val s))) as [r1 [v [E Hr]]].
    rewrite E in H. injection H as <- <- <-. split; [reflexivity|].
    eexists. split; [reflexivity|]. split; [apply this_provider_offers|exact Hr].
  - injection H as <- <- <-. split; [reflexivity|]. split; [|reflexivity].
    unfold new_events. simpl. rewrite app_nil_r. reflexivity.
Qed.
Theorem anonymous_server_exact e s input script r out s' :
  s_mech s = XAnonymousS -> step e s input script = (r, out, s') ->
  out = [] /\
  if utf8_valid (unwrap_or_empty input)
  then exists c, new_events s s' [EvValidate c] /\
         offers_only c PAnonymousToken (unwrap_or_empty input) /\ validated r
  else new_events s s' [] /\ r = Err (EMech MAnonymousUtf8).
Proof.
  intros Hm H. apply run_ok in H. destruct H as [m' [w' [H [-> ->]]]]. rewrite Hm in H.
  unfold mech_step, bind, getl in H. apply on_eq in H. destruct H as [l' [H _]].
  unfold anonymous_server_step, from_utf8 in H.
  destruct (utf8_valid (unwrap_or_empty input)).
  - destruct (validate_end e (this_provider PAnonymousToken (unwrap_or_empty input))
                (mk_world [] script (s_trace s) (s_rng s) (s_val s))) as [r1 [v [E Hr]]].
    rewrite E in H. injection H as <- <- <-. split; [reflexivity|].
    eexists. split; [reflexivity|]. split; [apply this_provider_offers|exact Hr].
  - injection H as <- <- <-. split; [reflexivity|]. split; [|reflexivity].
    unfold new_events. simpl. rewrite app_nil_r. reflexivity.
Qed.

Theorem external_exchange ec es sc ss o :
  s_mech sc = XExternalC -> s_mech ss = XExternalS -> answers_with ec PAuthzId o ->
  forall i, exists sc', let token := match o with Some v => v | None => [] end in
    step ec sc i [] = (Ok (Finished true), token, sc') /\
    (utf8_valid token = true -> forall script r out ss',
       step es ss (Some token) script = (r, out, ss') ->
       out = [] /\ exists c, new_events ss ss' [EvValidate c] /\
         offers_only c PAuthzId token /\ validated r).
Proof.
  intros Hc Hs Ha i.
  destruct (token_client_full ec PAuthzId eq_refl o
     (mk_world [] [] (s_trace sc) (s_rng sc) (s_val sc)) eq_refl Ha) as [evs [E _]].
  eexists. split.
  - rewrite (step_eq _ _ _ _ _ Hc). unfold mech_step, bind, getl, on.
    rewrite external_client_token, E. reflexivity.
  - intros Hu script r out ss' H. apply external_server_exact in H; [|assumption].
    cbn [unwrap_or_empty] in H. rewrite Hu in H. exact H.
Qed.
Theorem anonymous_exchange ec es sc ss o :
  s_mech sc = XAnonymousC -> s_mech ss = XAnonymousS -> answers_with ec PAnonymousToken o ->
  forall i, exists sc', let token := match o with Some v => v | None => [] end in
    step ec sc i [] = (Ok (Finished true), token, sc') /\
    (utf8_valid token = true -> forall script r out ss',
       step es ss (Some token) script = (r, out, ss') ->
       out = [] /\ exists c, new_events ss ss' [EvValidate c] /\
         offers_only c PAnonymousToken token /\ validated r).
Proof.
  intros Hc Hs Ha i.
  destruct (token_client_full ec PAnonymousToken eq_refl o
     (mk_world [] [] (s_trace sc) (s_rng sc) (s_val sc)) eq_refl Ha) as [evs [E _]].
  eexists. split.
  - rewrite (step_eq _ _ _ _ _ Hc). unfold mech_step, bind, getl, on.
    rewrite anonymous_client_token, E. reflexivity.
  - intros Hu script r out ss' H. apply anonymous_server_exact in H; [|assumption].
    cbn [unwrap_or_empty] in H. rewrite Hu in H. exact H.
Qed.
