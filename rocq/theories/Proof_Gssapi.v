(** GSSAPI: security layers. *)
From Coq Require Import Lia NArith.
From Verif Require Import Bytes Types World CallbackSpec WorldFacts MonadFacts Gssapi Session
  Spec_Simple Spec_History Spec_Gssapi.
Open Scope m_scope.

Definition got (evs : list event) : list seclayer := answers PGssSecurityLayer evs.

(** * Bits *)
Definition has (l : layer) (b : seclayer) : bool :=
  match l with
  | LayerNone => has_none b | LayerIntegrity => has_integ b | LayerConfidentiality => has_conf b
  end.
Lemma layer_has l b : layer_in l b <-> has l b = true.
Proof.
  destruct b as [b0 b1 b2 b3 b4 b5 b6 b7]. unfold layer_in.
  replace (N.testbit _ _) with (has l (Ascii b0 b1 b2 b3 b4 b5 b6 b7)); [reflexivity|].
  destruct l, b0, b1, b2, b3, b4, b5, b6, b7; reflexivity.
Qed.
Lemma has_and l a b : has l (sl_and a b) = has l a && has l b.
Proof. destruct l, a, b; reflexivity. Qed.
Lemma from_bits_same b x : from_bits b = Some x -> x = b.
Proof. destruct b; cbn. destruct (_ || _); congruence. Qed.
Lemma known_bits b x : from_bits b = Some x -> has_none b = false -> has_integ b = false ->
  has_conf b = false -> b = zero.
Proof.
  destruct b as [b0 b1 b2 b3 b4 b5 b6 b7]; cbn. intros H -> -> ->.
  destruct b3, b4, b5, b6, b7; try discriminate. reflexivity.
Qed.
Lemma sl_and_known a b x : from_bits a = Some x -> sl_is_empty (sl_and a b) = false ->
  exists l, has l a = true /\ has l b = true.
Proof.
  destruct a as [a0 a1 a2 a3 a4 a5 a6 a7], b as [b0 b1 b2 b3 b4 b5 b6 b7]. cbn. intros H E.
  destruct a3, a4, a5, a6, a7; try discriminate.
  destruct (a0 && b0) eqn:E0.
  { exists LayerNone. cbn. apply andb_prop in E0. exact E0. }
  destruct (a1 && b1) eqn:E1.
  { exists LayerIntegrity. cbn. apply andb_prop in E1. exact E1. }
  destruct (a2 && b2) eqn:E2.
  { exists LayerConfidentiality. cbn. apply andb_prop in E2. exact E2. }
  discriminate.
Qed.
Lemma from_bits_known b x : from_bits b = Some x -> known_layers b.
Proof.
  destruct b as [b0 b1 b2 b3 b4 b5 b6 b7]. cbn [from_bits]. intros H n.
  destruct b3, b4, b5, b6, b7; try discriminate. clear H.
  destruct b0, b1, b2; destruct n as [|[[[]|[]|]|[[]|[]|]|]]; cbn; intros; try discriminate; lia.
Qed.
Lemma has_mask flags l b :
  has l (gss_mask flags b) = true <-> has l b = true /\ capable flags l.
Proof.
  destruct flags as [m c i], b as [b0 b1 b2 b3 b4 b5 b6 b7].
  destruct m, c, i, l; cbn; intuition congruence.
Qed.

(** * Inversion *)
Lemma gss_try_ok {L A} (o : option A) (l : L) w a l' w' :
  gss_try o l w = (Ok a, l', w') -> o = Some a /\ l' = l /\ w' = w.
Proof. destruct o; [|discriminate]. intros [= <- <- <-]. auto. Qed.

Lemma got_app a b : got (a ++ b) = got a ++ got b.
Proof. apply (answers_app PGssSecurityLayer). Qed.
Lemma got_request q c evs : got (EvRequest q c :: evs) = got evs.
Proof. reflexivity. Qed.
Lemma got_closures cs : only_closures cs -> got cs = [].
Proof. apply (answers_closures PGssSecurityLayer). Qed.

(** A request for a property whose consumer leaves the world alone. *)
Lemma asked_value {L G} e q c (f : pval q -> M L G) l w g l' w' :
  (forall v l w r l1 w1, f v l w = (r, l1, w1) -> w1 = w) ->
  need_with e q c f l w = (Ok g, l', w') ->
  exists v evs w1, w_trace w' = w_trace w ++ evs /\ answers q evs = [v] /\
    (forall q', q' <> q -> answers q' evs = []) /\ f v l w1 = (Ok g, l', w1).
Proof.
  intros Hf H. apply need_with_ok in H. destruct H as [v [cs1 [cs2 [w1 [H1 [H2 [E ->]]]]]]].
  pose proof (Hf _ _ _ _ _ _ E). subst w1.
  exists v, ((EvRequest q c :: cs1 ++ [EvAnswer q v]) ++ cs2). eexists.
  split; [rewrite add_events_app; reflexivity|].
  assert (A : forall q', answers q' ((EvRequest q c :: cs1 ++ [EvAnswer q v]) ++ cs2)
                = answers q' [EvAnswer q v]).
  { intros q'. change (answers q' ((cs1 ++ [EvAnswer q v]) ++ cs2) = answers q' [EvAnswer q v]).
    rewrite !answers_app, (answers_closures _ _ H1), (answers_closures _ _ H2), app_nil_r.
    reflexivity. }
  split; [rewrite A; apply answers_answer|]. split; [|exact E].
  intros q' N. rewrite A. apply answers_other. congruence.
Qed.

(** The check the client makes on the application's answer. *)
Definition checked (e : env) (c : gctx) (acc : seclayer) : Prop :=
  exists flags, e_gss_flags e c = Some flags /\
    (acc = zero \/ has_none acc = true \/ (has_integ acc = true /\ gf_integ flags = true) \/
     (gf_integ flags = true /\ gf_mutual flags = true /\ gf_conf flags = true)).
(** Which layers the application accepts, and that the client checked them. *)
Definition settled (e : env) (c : gctx) (evs : list event) (acc : seclayer) : Prop :=
  (got evs = [acc] /\ checked e c acc) \/ (got evs = [] /\ acc = sl_default).

Lemma check_results {L} e c acc (l : L) w r l' w' :
  gss_check_acceptable e c acc l w = (r, l', w') ->
  l' = l /\ w' = w /\ ((r = Ok acc /\ checked e c acc) \/ exists x, r = Err (EMech x)).
Proof.
  unfold gss_check_acceptable, gss_try. destruct (e_gss_flags e c) as [flags|] eqn:Ef.
  - cbn. unfold bind, ret, fail.
    destruct (sl_is_empty acc || has_none acc) eqn:E1.
    { intros [= <- <- <-]. split; [reflexivity|]. split; [reflexivity|]. left. split; [reflexivity|].
      exists flags. split; [exact Ef|]. apply Bool.orb_prop in E1. destruct E1 as [E1|E1]; [left|tauto].
      unfold sl_is_empty in E1. apply Ascii.eqb_eq in E1. exact E1. }
    destruct (has_integ acc && gf_integ flags) eqn:E2.
    { intros [= <- <- <-]. split; [reflexivity|]. split; [reflexivity|]. left. split; [reflexivity|].
      exists flags. split; [exact Ef|]. apply andb_prop in E2. tauto. }
    destruct (gf_integ flags && gf_mutual flags && gf_conf flags) eqn:E3.
    { intros [= <- <- <-]. split; [reflexivity|]. split; [reflexivity|]. left. split; [reflexivity|].
      exists flags. split; [exact Ef|]. apply andb_prop in E3. destruct E3 as [E3 E4].
      apply andb_prop in E3. tauto. }
    intros [= <- <- <-]. eauto.
  - cbn. unfold bind, gss_err, fail. intros [= <- <- <-]. eauto.
Qed.

Lemma client_pending_ok e c input l w st l' w' :
  polite e -> gss_client_pending e c input l w = (Ok st, l', w') ->
  st = Running /\ exists evs, w_trace w' = w_trace w ++ evs /\
    (forall q, q <> PGssSecurityLayer -> answers q evs = []) /\
    ((l' = GcPending (c ++ [GStep input]) /\ evs = []) \/
     (e_gss_complete e (c ++ [GStep input]) = true /\ exists acc,
        l' = GcLast (c ++ [GStep input]) acc /\ settled e (c ++ [GStep input]) evs acc)).
Proof.
  intros He H. unfold gss_client_pending in H. inv_bind H.
  apply gss_try_ok in H0. destruct H0 as [_ [-> ->]]. cbv zeta in H.
  inv_bind H.
  assert (T : l0 = l /\ w_trace w0 = w_trace w).
  { destruct a as [[|t0 t]|]; try (injection H0 as <- <- <-; auto).
    apply write_all_ok in H0. destruct H0 as [-> Hw]. split; [reflexivity|apply (wrote_trace _ _ _ Hw)]. }
  destruct T as [-> T]. rewrite <- T. clear T H0.
  destruct (e_gss_complete e (c ++ [GStep input])) eqn:Ec; cbn [negb] in H.
  - inv_bind H. inv_bind H. injection H1 as <- <- <-. injection H as <- <- <-.
    split; [reflexivity|].
    apply maybe_need_with_polite in H0; [|apply He].
    destruct H0 as [[-> [_ [cs [Hc ->]]]]|[v [cs [r [Hc [Ha [E Hr]]]]]]].
    + exists (EvRequest PGssSecurityLayer empty_provider :: cs). split; [reflexivity|].
      split; [intros q _; exact (answers_closures q _ Hc)|]. right.
      split; [reflexivity|]. eexists. split; [reflexivity|]. right.
      split; [rewrite got_request; apply got_closures; exact Hc|reflexivity].
    + apply check_results in E. destruct E as [-> [-> [[-> K]|[x ->]]]]; [|discriminate].
      cbn in Hr. injection Hr as <-.
      exists (EvRequest PGssSecurityLayer empty_provider :: cs ++ [EvAnswer PGssSecurityLayer v]).
      split; [reflexivity|]. split.
      { intros q N. change (answers q (cs ++ [EvAnswer PGssSecurityLayer v]) = []).
        rewrite answers_app, (answers_closures _ _ Hc). apply answers_other. congruence. }
      right. split; [reflexivity|]. exists v. split; [reflexivity|]. left.
      split; [|exact K]. rewrite got_request, got_app, (got_closures _ Hc).
      unfold got. rewrite answers_answer. reflexivity.
  - inv_bind H. injection H0 as <- <- <-. injection H as <- <- <-. split; [reflexivity|].
    exists []. rewrite app_nil_r. split; [reflexivity|]. split; [reflexivity|]. auto.
Qed.

(** What holds in the state of a client that is still running. *)
Definition cinv (e : env) (evs : list event) (l : gss_cst) : Prop :=
  match l with
  | GcInitial => got evs = [] /\ answers PGssService evs = [] /\ answers PHostname evs = []
  | GcPending c => got evs = [] /\ opened_for evs c
  | GcLast c acc => e_gss_complete e c = true /\ settled e c evs acc /\ opened_for evs c
  | _ => True
  end.
Lemma opened_more evs evs' c x : opened_for evs c ->
  (forall q, q <> PGssSecurityLayer -> answers q evs' = []) -> opened_for (evs ++ evs') (c ++ x).
Proof.
  intros [sv [h [t [A [B ->]]]]] N. exists sv, h, (t ++ x). split; [|split; [|reflexivity]].
  - rewrite answers_app, (N PGssService) by discriminate. rewrite app_nil_r. exact A.
  - rewrite answers_app, (N PHostname) by discriminate. rewrite app_nil_r. exact B.
Qed.

Lemma client_running e input l w l' w' evs0 :
  polite e -> cinv e evs0 l -> gss_client_step e input l w = (Ok Running, l', w') ->
  exists evs, w_trace w' = w_trace w ++ evs /\ cinv e (evs0 ++ evs) l'.
Proof.
  intros He Hi H. unfold gss_client_step in H. inv_bind H. injection H0 as <- <- <-.
  inv_bind H. injection H0 as <- <- <-.
  assert (P : forall c l w l' w' evs1, got (evs0 ++ evs1) = [] -> opened_for (evs0 ++ evs1) c ->
    gss_client_pending e c input l w = (Ok Running, l', w') ->
    exists evs, w_trace w' = w_trace w ++ evs /\ cinv e ((evs0 ++ evs1) ++ evs) l').
  { intros c0 l0 w0 l1 w1 evs1 G O Hp. apply client_pending_ok in Hp; [|exact He].
    destruct Hp as [_ [evs [T [N K]]]]. exists evs. split; [exact T|].
    pose proof (opened_more _ _ _ [GStep input] O N) as O'.
    destruct K as [[-> ->]|[Ec [acc [-> K]]]]; cbn [cinv].
    - split; [rewrite app_nil_r; exact G|exact O'].
    - split; [exact Ec|]. split; [|exact O']. unfold settled in *. rewrite got_app, G. exact K. }
  destruct l as [|c|c acc|layer|].
  - destruct Hi as [Hi1 [Hi2 Hi3]]. inv_bind H.
    apply asked_value in H0; [|intros ? ? ? ? ? ? E; injection E as <- <- <-; reflexivity].
    destruct H0 as [svc [ev1 [wa [T1 [A1 [N1 E1]]]]]]. injection E1 as E1 _. subst a.
    inv_bind H. destruct a as [u t]. apply locally_ok in H0. destruct H0 as [-> H0].
    apply asked_value in H0; [|intros ? ? ? ? ? ? E; injection E as <- <- <-; reflexivity].
    destruct H0 as [host [ev2 [wb [T2 [A2 [N2 E2]]]]]]. injection E2 as _ E2. subst t.
    apply bind_ok in H. destruct H as [u2 [l5 [w5 [H0 H]]]].
    assert (T3 : w5 = w1).
    { destruct (_ && _); [injection H0 as <- <- <-; auto|discriminate]. }
    subst w5. apply P with (evs1 := ev1 ++ ev2) in H; [destruct H as [evs [T K]]| |].
    2: { unfold got in *. rewrite !answers_app, Hi1, N1, N2 by discriminate. reflexivity. }
    2: { exists svc, host, []. rewrite !answers_app, Hi2, Hi3, A1, A2, (N2 PGssService), (N1 PHostname)
           by discriminate. rewrite <- app_assoc. auto. }
    exists ((ev1 ++ ev2) ++ evs). rewrite T, T2, T1, !app_assoc. split; [reflexivity|].
    rewrite !app_assoc in K. exact K.
  - destruct Hi as [Hi1 Hi2]. apply P with (evs1 := []) in H; [destruct H as [evs [T K]]| |].
    2-3: rewrite app_nil_r; assumption.
    exists evs. rewrite app_nil_r in K. auto.
  - destruct input as [i|]; [|discriminate].
    inv_bind H. apply gss_try_ok in H0. destruct H0 as [_ [-> ->]]. cbv zeta in H.
    destruct a as [|b0 [|b1 [|b2 [|b3 [|? ?]]]]]; try discriminate.
    destruct (from_bits b0); [|discriminate].
    destruct (gss_choose _) as [[rsp wr]|]; [|discriminate].
    inv_bind H. inv_bind H. inv_bind H. discriminate.
  - discriminate.
  - discriminate.
Qed.

Lemma client_finished e input l w b l' w' :
  gss_client_step e input l w = (Ok (Finished b), l', w') ->
  polite e ->
  w_trace w' = w_trace w /\ b = true /\
  exists c acc i offer rest ly wrapped, l = GcLast c acc /\ input = Some i /\
    e_gss_unwrap e c i = Some (offer :: rest) /\ length rest = 3 /\ known_layers offer /\
    uses_layer (XGssapiC l') ly /\ layer_in ly offer /\ layer_in ly acc /\
    (forall x, layer_in x offer -> layer_in x acc -> weaker x ly) /\
    e_gss_wrap e (c ++ [GUnwrap i]) false (layer_octet ly :: size_for (is_protected ly))
      = Some wrapped /\ w_out w' = w_out w ++ wrapped.
Proof.
  intros H He. unfold gss_client_step in H. inv_bind H. injection H0 as <- <- <-.
  inv_bind H. injection H0 as <- <- <-.
  destruct l as [|c|c acc|layer|].
  - inv_bind H. inv_bind H. destruct a0 as [u t]. inv_bind H.
    apply client_pending_ok in H; [|exact He]. destruct H as [H _]. discriminate.
  - apply client_pending_ok in H; [|exact He]. destruct H as [H _]. discriminate.
  - destruct input as [i|]; [|discriminate].
    inv_bind H. apply gss_try_ok in H0. destruct H0 as [Hu [-> ->]]. cbv zeta in H.
    destruct a as [|b0 [|b1 [|b2 [|b3 [|? ?]]]]]; try discriminate.
    destruct (from_bits b0) as [sup|] eqn:Eb; [|discriminate].
    pose proof (from_bits_known _ _ Eb) as Hk. apply from_bits_same in Eb. subst sup.
    destruct (gss_choose (sl_and b0 acc)) as [[rsp wr]|] eqn:Eg; [|discriminate].
    inv_bind H. apply gss_try_ok in H0. destruct H0 as [Hw [-> ->]]. cbv zeta in H.
    inv_bind H. apply write_all_ok in H0. destruct H0 as [-> Hwr].
    inv_bind H. injection H0 as <- <- <-. injection H as <- <- <-.
    split; [apply (wrote_trace _ _ _ Hwr)|]. split; [reflexivity|].
    assert (K : exists ly, has ly (sl_and b0 acc) = true /\
              (forall x, has x (sl_and b0 acc) = true -> weaker x ly) /\
              rsp = layer_octet ly :: size_for (is_protected ly) /\
              wr = match ly with LayerNone => None | LayerIntegrity => Some false
                               | LayerConfidentiality => Some true end).
    { unfold gss_choose in Eg. destruct (has_conf _) eqn:E1.
      { injection Eg as <- <-. exists LayerConfidentiality. split; [exact E1|].
        split; [|auto]. intros []; unfold weaker; cbn; lia. }
      destruct (has_integ _) eqn:E2.
      { injection Eg as <- <-. exists LayerIntegrity. split; [exact E2|].
        split; [|auto]. intros []; unfold weaker; cbn [has layer_bit]; intros; try lia; congruence. }
      destruct (has_none _) eqn:E3; [|discriminate].
      injection Eg as <- <-. exists LayerNone. split; [exact E3|].
      split; [|auto]. intros []; unfold weaker; cbn [has layer_bit]; intros; try lia; congruence. }
    destruct K as [ly [K [Kb [-> ->]]]]. rewrite has_and in K. apply andb_prop in K.
    destruct K as [K1 K2].
    exists c, acc, i, b0, [b1; b2; b3], ly. eexists. split; [reflexivity|]. split; [reflexivity|].
    split; [exact Hu|]. split; [reflexivity|]. split; [exact Hk|].
    split; [destruct ly; constructor|].
    split; [apply layer_has, K1|]. split; [apply layer_has, K2|]. split.
    + intros x X1 X2. apply Kb. rewrite has_and. apply layer_has in X1, X2. rewrite X1, X2. reflexivity.
    + split; [exact Hw|]. exact (wrote_out _ _ _ Hwr).
  - discriminate.
  - discriminate.
Qed.

Lemma step_client e s l input script r out s' :
  s_mech s = XGssapiC l -> step e s input script = (r, out, s') ->
  exists l' w', gss_client_step e input l (mk_world [] script (s_trace s) (s_rng s) (s_val s))
    = (r, l', w') /\ s_mech s' = XGssapiC l' /\ s_trace s' = w_trace w' /\ out = w_out w'.
Proof.
  intros Em H. apply run_ok in H. destruct H as [m' [w' [H [-> ->]]]].
  rewrite Em in H.
  change (mech_step e input (XGssapiC l)) with (on XGssapiC l (gss_client_step e input) (XGssapiC l)) in H.
  apply on_eq in H.
  destruct H as [l' [H ->]]. eauto 10.
Qed.
Lemma step_server e s l input script r out s' :
  s_mech s = XGssapiS l -> step e s input script = (r, out, s') ->
  exists l' w', gss_server_step e input l (mk_world [] script (s_trace s) (s_rng s) (s_val s))
    = (r, l', w') /\ s_mech s' = XGssapiS l' /\ s_trace s' = w_trace w' /\ out = w_out w'.
Proof.
  intros Em H. apply run_ok in H. destruct H as [m' [w' [H [-> ->]]]].
  rewrite Em in H.
  change (mech_step e input (XGssapiS l)) with (on XGssapiS l (gss_server_step e input) (XGssapiS l)) in H.
  apply on_eq in H.
  destruct H as [l' [H ->]]. eauto 10.
Qed.

Lemma client_ongoing e s s1 : polite e -> s_mech s = XGssapiC GcInitial -> ongoing e s s1 ->
  exists l evs, s_mech s1 = XGssapiC l /\ new_events s s1 evs /\ cinv e evs l.
Proof.
  intros He Hs H. induction H as [|s1 input script out s2 H IH E].
  - exists GcInitial, []. unfold new_events. rewrite app_nil_r. repeat split; auto.
  - destruct IH as [l [evs [Hm [Hn Hi]]]].
    destruct (step_client _ _ _ _ _ _ _ _ Hm E) as [l' [w' [K [Hm' [Ht _]]]]].
    destruct (client_running _ _ _ _ _ _ _ He Hi K) as [ev2 [T C]].
    exists l', (evs ++ ev2). split; [exact Hm'|]. split; [|exact C].
    unfold new_events in *. rewrite Ht, T. cbn. rewrite Hn, app_assoc. reflexivity.
Qed.

(** C51 *)
Theorem client_layer e s s1 input script b out s2 evs :
  polite e -> s_mech s = XGssapiC GcInitial -> ongoing e s s1 ->
  step e s1 input script = (Ok (Finished b), out, s2) -> new_events s s2 evs ->
  exists c token offer rest acc ly wrapped,
    (* the context, and the server's offer *)
    opened_for evs c /\ e_gss_complete e c = true /\ input = Some token /\
    e_gss_unwrap e c token = Some (offer :: rest) /\ length rest = 3 /\ known_layers offer /\
    acceptable_to evs acc /\
    (* the layer in use *)
    uses_layer (s_mech s2) ly /\ layer_in ly offer /\ layer_in ly acc /\
    (forall l, layer_in l offer -> layer_in l acc -> weaker l ly) /\
    (* the response *)
    b = true /\ out = wrapped /\
    e_gss_wrap e (c ++ [GUnwrap token]) false (layer_octet ly :: size_for (is_protected ly))
      = Some wrapped /\
    (answers PGssSecurityLayer evs <> [] ->
     ~ layer_in LayerNone acc -> ~ layer_in LayerIntegrity acc ->
     exists flags, e_gss_flags e c = Some flags /\ capable flags LayerConfidentiality).
Proof.
  intros He Hs Ho H Hn.
  destruct (client_ongoing _ _ _ He Hs Ho) as [l [ev1 [Hm [Hn1 Hi]]]].
  destruct (step_client _ _ _ _ _ _ _ _ Hm H) as [l' [w' [K [Hm' [Ht Hout]]]]].
  apply client_finished in K; [|exact He].
  destruct K as [T [-> [c [acc [i [offer [rest [ly [wrapped [-> [-> [Hu [Hl [Hk [Hul [H1 [H2 [H3 [Hw Hwo]]]]]]]]]]]]]]]]]]].
  cbn in T. unfold new_events in *. rewrite Ht, T, Hn1 in Hn. apply app_inv_head in Hn. subst ev1.
  destruct Hi as [Hc [Hset Hop]].
  exists c, i, offer, rest, acc, ly, wrapped. rewrite Hm'.
  split; [exact Hop|]. split; [exact Hc|]. split; [reflexivity|]. split; [exact Hu|].
  split; [exact Hl|]. split; [exact Hk|].
  split; [destruct Hset as [[G _]|[G A]]; [left|right; split]; assumption|].
  split; [exact Hul|]. split; [exact H1|]. split; [exact H2|]. split; [exact H3|].
  split; [reflexivity|]. split; [rewrite Hout; exact Hwo|]. split; [exact Hw|].
  intros G N1 N2. rewrite layer_has in N1, N2. destruct Hset as [[_ [flags [Hf K]]]|[G' _]].
  - exists flags. split; [exact Hf|]. cbn in N1, N2.
    destruct K as [->|[K|[[K _]|[_ [K1 K2]]]]]; [|congruence|congruence|split; assumption].
    apply layer_has in H2. exfalso. destruct ly; discriminate H2.
  - destruct (G G').
Qed.

(** * Server *)

(** [sup] is what is offered under [acc] by the established context [c]. *)
Definition offered (e : env) (c : gctx) (evs : list event) (sup : seclayer) : Prop :=
  exists acc flags, acceptable_to evs acc /\ e_gss_complete e c = true /\
    e_gss_flags e c = Some flags /\
    forall l, layer_in l sup <-> layer_in l acc /\ capable flags l.
Definition sinv (e : env) (evs : list event) (l : gss_sst) : Prop :=
  match l with
  | GsInitial | GsPending _ => got evs = []
  | GsInstalled c sup => offered e c evs sup
  | GsFinal c sup => exists c0 size, c = c0 ++ [GWrap false (sup :: size)] /\
      size = size_for (has_conf sup || has_integ sup) /\
      e_gss_wrap e c0 false (sup :: size) <> None /\ offered e c0 evs sup
  | _ => True
  end.

Lemma server_installed_ok e c sup l w st l' w' evs0 :
  gss_server_installed e c sup l w = (Ok st, l', w') -> offered e c evs0 sup ->
  st = Running /\ w_trace w' = w_trace w /\ sinv e evs0 l'.
Proof.
  intros H Ho. unfold gss_server_installed in H. cbv zeta in H. inv_bind H.
  apply gss_try_ok in H0. destruct H0 as [Hw [-> ->]]. inv_bind H.
  apply write_all_ok in H0. destruct H0 as [-> Hwr]. inv_bind H.
  injection H0 as <- <- <-. injection H as <- <- <-. split; [reflexivity|].
  split; [apply (wrote_trace _ _ _ Hwr)|]. cbn [sinv].
  destruct (has_conf sup || has_integ sup);
    (eexists; eexists; split; [reflexivity|split; [reflexivity|split; [|exact Ho]]]; congruence).
Qed.

Lemma server_pending_ok e c input l w st l' w' evs0 :
  polite e -> got evs0 = [] -> l = GsErrored ->
  gss_server_pending e c input l w = (Ok st, l', w') ->
  st = Running /\ exists evs, w_trace w' = w_trace w ++ evs /\ sinv e (evs0 ++ evs) l'.
Proof.
  intros He G El H. unfold gss_server_pending in H. destruct input as [i|]; [|discriminate].
  inv_bind H. apply gss_try_ok in H0. destruct H0 as [_ [-> ->]]. cbv zeta in H.
  destruct (e_gss_complete e (c ++ [GStep (Some i)])) eqn:Ec.
  - inv_bind H.
    assert (K : exists evs, w_trace w0 = w_trace w ++ evs /\
              acceptable_to (evs0 ++ evs) (unwrap_layer a0)).
    { apply maybe_need_with_polite in H0; [|apply He].
      destruct H0 as [[-> [_ [cs [Hc ->]]]]|[v [cs [r [Hc [Ha [E Hr]]]]]]].
      - exists (EvRequest PGssSecurityLayer empty_provider :: cs). split; [reflexivity|]. right.
        split; [|reflexivity].
        change (got (evs0 ++ EvRequest PGssSecurityLayer empty_provider :: cs) = []).
        rewrite got_app, G, got_request. apply got_closures. exact Hc.
      - injection E as <- _ <-. cbn in Hr. injection Hr as <-.
        exists (EvRequest PGssSecurityLayer empty_provider :: cs ++ [EvAnswer PGssSecurityLayer v]).
        split; [reflexivity|]. left.
        change (got (evs0 ++ EvRequest PGssSecurityLayer empty_provider :: cs ++
                       [EvAnswer PGssSecurityLayer v]) = [v]).
        rewrite got_app, G, got_request, got_app, (got_closures _ Hc).
        unfold got. rewrite answers_answer. reflexivity. }
    destruct K as [evs [T Hacc]].
    inv_bind H. apply gss_try_ok in H1. destruct H1 as [Hf [-> ->]].
    destruct (sl_is_empty _); [discriminate|].
    assert (Off : offered e (c ++ [GStep (Some i)]) (evs0 ++ evs) (gss_mask a1 (unwrap_layer a0))).
    { exists (unwrap_layer a0), a1. repeat split; auto; intros;
        [rewrite layer_has in H1; apply has_mask in H1; rewrite layer_has; apply H1
        |rewrite layer_has in H1; apply has_mask in H1; apply H1
        |].
      destruct H1 as [H1 H2]. rewrite layer_has in *. apply has_mask. auto. }
    inv_bind H. injection H1 as <- <- <-.
    destruct a as [t|].
    + inv_bind H. apply write_all_ok in H1. destruct H1 as [-> Hw]. injection H as <- <- <-.
      split; [reflexivity|]. exists evs. split; [rewrite (wrote_trace _ _ _ Hw); exact T|exact Off].
    + inv_bind H. injection H1 as <- <- <-.
      destruct (server_installed_ok _ _ _ _ _ _ _ _ _ H Off) as [-> [T2 K]].
      split; [reflexivity|]. exists evs. split; [congruence|exact K].
  - destruct a as [t|]; [|discriminate]. inv_bind H. apply write_all_ok in H0.
    destruct H0 as [-> Hw]. injection H as <- <- <-. split; [reflexivity|].
    exists []. rewrite !app_nil_r. split; [apply (wrote_trace _ _ _ Hw)|]. subst l. exact I.
Qed.

Lemma server_running e input l w l' w' evs0 :
  polite e -> sinv e evs0 l -> gss_server_step e input l w = (Ok Running, l', w') ->
  exists evs, w_trace w' = w_trace w ++ evs /\ sinv e (evs0 ++ evs) l'.
Proof.
  intros He Hi H. unfold gss_server_step in H. inv_bind H. injection H0 as <- <- <-.
  inv_bind H. injection H0 as <- <- <-.
  destruct l as [|c|c sup|c sup|layer|].
  - destruct (e_gss_cred e); [|discriminate].
    apply server_pending_ok with (evs0 := evs0) in H; auto. apply H.
  - apply server_pending_ok with (evs0 := evs0) in H; auto. apply H.
  - destruct (server_installed_ok _ _ _ _ _ _ _ _ _ H Hi) as [_ [T K]].
    exists []. rewrite !app_nil_r. auto.
  - destruct input as [i|]; [|discriminate]. inv_bind H.
    apply gss_try_ok in H0. destruct H0 as [_ [-> ->]]. cbv zeta in H.
    destruct a as [|b0 [|b1 [|b2 [|b3 [|? ?]]]]]; try discriminate.
    destruct (from_bits b0); [|discriminate]. destruct (negb _); [discriminate|].
    inv_bind H. discriminate.
  - discriminate.
  - discriminate.
Qed.

Lemma server_finished e input l w b l' w' evs0 :
  gss_server_step e input l w = (Ok (Finished b), l', w') -> polite e -> sinv e evs0 l ->
  w_trace w' = w_trace w /\
  exists c sup i sel rest ly, l = GsFinal c sup /\ input = Some i /\
    e_gss_unwrap e c i = Some (sel :: rest) /\ length rest = 3 /\
    known_layers sel /\ uses_layer (XGssapiS l') ly /\
    (exists x, layer_in x sel /\ layer_in x sup) /\
    (ly = LayerNone -> layer_in LayerNone sup) /\
    (forall x, selects_one sel x -> ly = x /\ layer_in x sup).
Proof.
  intros H He Hi. unfold gss_server_step in H. inv_bind H. injection H0 as <- <- <-.
  inv_bind H. injection H0 as <- <- <-.
  destruct l as [|c|c sup|c sup|layer|].
  - destruct (e_gss_cred e); [|discriminate].
    apply server_pending_ok with (evs0 := evs0) in H; auto. destruct H; discriminate.
  - apply server_pending_ok with (evs0 := evs0) in H; auto. destruct H; discriminate.
  - destruct (server_installed_ok _ _ _ _ _ _ _ _ _ H Hi); discriminate.
  - destruct input as [i|]; [|discriminate]. inv_bind H.
    apply gss_try_ok in H0. destruct H0 as [Hu [-> ->]]. cbv zeta in H.
    destruct a as [|b0 [|b1 [|b2 [|b3 [|? ?]]]]]; try discriminate.
    destruct (from_bits b0) as [sel|] eqn:Eb; [|discriminate].
    pose proof (from_bits_same _ _ Eb). subst sel.
    unfold sl_intersects in H. rewrite Bool.negb_involutive in H.
    destruct (sl_is_empty (sl_and b0 sup)) eqn:Ee; [discriminate|].
    inv_bind H. injection H0 as <- <- <-. injection H as <- <- <-.
    split; [reflexivity|]. destruct (sl_and_known _ _ _ Eb Ee) as [x [X1 X2]].
    set (ly := if has_conf b0 then LayerConfidentiality
               else if has_integ b0 then LayerIntegrity else LayerNone).
    exists c, sup, i, b0, [b1; b2; b3], ly. pose proof (from_bits_known _ _ Eb) as Hk. repeat split; auto.
    + unfold ly. destruct (has_conf b0); [constructor|]. destruct (has_integ b0); constructor.
    + exists x. rewrite !layer_has. auto.
    + unfold ly. destruct (has_conf b0) eqn:E1; [discriminate|].
      destruct (has_integ b0) eqn:E2; [discriminate|]. intros _. apply layer_has.
      destruct x; cbn in X1, X2; [exact X2|congruence|congruence].
    + assert (D : has ly b0 = true).
      { unfold ly. destruct (has_conf b0) eqn:E1; [exact E1|].
        destruct (has_integ b0) eqn:E2; [exact E2|]. destruct x; cbn in *; congruence. }
      apply layer_has in D. apply (H ly). exact D.
    + apply layer_has in X1. apply H in X1. subst x. apply layer_has. exact X2.
  - discriminate.
  - discriminate.
Qed.

Lemma server_ongoing e s s1 : polite e -> s_mech s = XGssapiS GsInitial -> ongoing e s s1 ->
  exists l evs, s_mech s1 = XGssapiS l /\ new_events s s1 evs /\ sinv e evs l.
Proof.
  intros He Hs H. induction H as [|s1 input script out s2 H IH E].
  - exists GsInitial, []. unfold new_events. rewrite app_nil_r. repeat split; auto.
  - destruct IH as [l [evs [Hm [Hn Hi]]]].
    destruct (step_server _ _ _ _ _ _ _ _ Hm E) as [l' [w' [K [Hm' [Ht _]]]]].
    destruct (server_running _ _ _ _ _ _ _ He Hi K) as [ev2 [T C]].
    exists l', (evs ++ ev2). split; [exact Hm'|]. split; [|exact C].
    unfold new_events in *. rewrite Ht, T. cbn. rewrite Hn, app_assoc. reflexivity.
Qed.

(** C52 *)
Theorem server_layer e s s1 input script b out s2 evs :
  polite e -> s_mech s = XGssapiS GsInitial -> ongoing e s s1 ->
  step e s1 input script = (Ok (Finished b), out, s2) -> new_events s s2 evs ->
  exists c flags acc offer size token choice rest ly,
    (* the context was established and can do [flags]; [offer] was sent *)
    e_gss_complete e c = true /\ e_gss_flags e c = Some flags /\ acceptable_to evs acc /\
    (forall l, layer_in l offer <-> layer_in l acc /\ capable flags l) /\
    (size = size_for false <-> forall l, layer_in l offer -> l = LayerNone) /\
    (size = size_for true \/ size = size_for false) /\
    e_gss_wrap e c false (offer :: size) <> None /\
    (* the client's choice *)
    input = Some token /\
    e_gss_unwrap e (c ++ [GWrap false (offer :: size)]) token = Some (choice :: rest) /\
    length rest = 3 /\ known_layers choice /\
    (* the layer in use *)
    uses_layer (s_mech s2) ly /\
    (ly = LayerNone -> layer_in LayerNone acc) /\
    (forall l, selects_one choice l -> ly = l /\ layer_in l offer).
Proof.
  intros He Hs Ho H Hn.
  destruct (server_ongoing _ _ _ He Hs Ho) as [l [ev1 [Hm [Hn1 Hi]]]].
  destruct (step_server _ _ _ _ _ _ _ _ Hm H) as [l' [w' [K [Hm' [Ht _]]]]].
  destruct (server_finished _ _ _ _ _ _ _ _ K He Hi)
    as [T [c [sup [i [sel [rest [ly [-> [-> [Hu [Hl [Hk [Hul [_ [HN H1]]]]]]]]]]]]]]].
  cbn in T. unfold new_events in *. rewrite Ht, T, Hn1 in Hn. apply app_inv_head in Hn. subst ev1.
  destruct Hi as [c0 [size [-> [Hsz [Hw [acc [flags [Ha [Hc [Hf Hoff]]]]]]]]]].
  exists c0, flags, acc, sup, size, i, sel, rest, ly. rewrite Hm'. 
  split; [exact Hc|]. split; [exact Hf|]. split; [exact Ha|]. split; [exact Hoff|].
  split.
  { rewrite Hsz. split.
    - destruct (has_conf sup) eqn:E1; [discriminate|]. destruct (has_integ sup) eqn:E2; [discriminate|].
      intros _ x Hx. apply layer_has in Hx. destruct x; cbn in Hx; congruence.
    - intros Hx. destruct (has_conf sup) eqn:E1.
      { discriminate (Hx LayerConfidentiality (proj2 (layer_has LayerConfidentiality sup) E1)). }
      destruct (has_integ sup) eqn:E2; [|reflexivity].
      discriminate (Hx LayerIntegrity (proj2 (layer_has LayerIntegrity sup) E2)). }
  split; [rewrite Hsz; destruct (_ || _); auto|].
  split; [exact Hw|]. split; [reflexivity|]. split; [exact Hu|].
  split; [exact Hl|]. split; [exact Hk|]. split; [exact Hul|]. split; [intros E; apply Hoff, HN, E|exact H1].
Qed.

(** C53: a context that needs another token is lost. *)
Theorem server_multi_leg e s input script out s1 input2 script2 :
  s_mech s = XGssapiS GsInitial -> step e s (Some input) script = (Ok Running, out, s1) ->
  e_gss_complete e [GAccept; GStep (Some input)] = false ->
  exists s2, step e s1 input2 script2 = (Err EMechanismDone, [], s2).
Proof.
  intros Hs H Hc.
  enough (E : s_mech s1 = XGssapiS GsErrored).
  { destruct s1 as [m tr n v]. cbn [s_mech] in E. subst m. eexists. reflexivity. }
  destruct (step_server _ _ _ _ _ _ _ _ Hs H) as [l' [w' [K [-> _]]]].
  unfold gss_server_step in K. inv_bind K. injection H0 as <- <- <-.
  inv_bind K. injection H0 as <- <- <-. destruct (e_gss_cred e); [|discriminate].
  unfold gss_server_pending in K. inv_bind K. apply gss_try_ok in H0. destruct H0 as [_ [-> ->]].
  cbv zeta in K. change ([GAccept] ++ [GStep (Some input)]) with [GAccept; GStep (Some input)] in K.
  rewrite Hc in K. destruct a as [t|]; [|discriminate]. inv_bind K. apply write_all_ok in H0.
  destruct H0 as [-> _]. injection K as <- _. reflexivity.
Qed.

(** * Encoding and decoding (C54) *)

Lemma protect_run {L} (o : option bytes) (len : nat) (l : L) w :
  let m : M L nat := t <- gss_try o ;; write_all t ;;; ret len in
  match o with
  | None => m l w = (Err (EMech MGss), l, w)
  | Some t => exists p q w', t = p ++ q /\ wrote p w w' /\
      ((q = [] /\ m l w = (Ok len, l, w')) \/
       (w_script w <> [] /\ exists x, m l w = (Err (EIo x), l, w')))
  end.
Proof.
  cbv zeta. destruct o as [t|]; [|reflexivity].
  cbn [gss_try]. unfold bind, ret.
  destruct (write_all_spec t l w) as [p [q [w1 [E [Hw [[Hr ->]|[x Hr]]]]]]].
  - exists p, [], w1. rewrite Hr. auto.
  - exists p, q, w1. split; [exact E|]. split; [exact Hw|]. right. split.
    + intros Hs. rewrite write_all_full in Hr by exact Hs. discriminate.
    + exists x. rewrite Hr. reflexivity.
Qed.
Lemma protect_session {L} (mm : M mech nat) (wrap : L -> mech) l (o : option bytes) len s script :
  (forall w, mm (s_mech s) w =
     on wrap l (t <- gss_try o ;; write_all t ;;; ret len) (s_mech s) w) ->
  sends o len script (wrap l) (run mm s script).
Proof.
  intros H. unfold run. rewrite H. unfold on.
  pose proof (protect_run o len l (mk_world [] script (s_trace s) (s_rng s) (s_val s))) as K.
  cbv zeta in K. unfold sends. destruct o as [t|].
  - destruct K as [p [q [w' [E [Hw [[-> K]|[Hs [x K]]]]]]]]; rewrite K;
      pose proof (wrote_out _ _ _ Hw) as Ho; cbn in Ho; rewrite Ho.
    + left. rewrite app_nil_r in E. subst t. eexists. split; reflexivity.
    + right. split; [exact Hs|]. exists p, q, x. eexists. split; [exact E|]. split; reflexivity.
  - rewrite K. eexists. split; reflexivity.
Qed.

Theorem encode_sends e s c conf input script : protects (s_mech s) c conf ->
  exists after, protects after (c ++ [GWrap conf input]) conf /\
    sends (e_gss_wrap e c conf input) (length input) script after
      (session_encode e s input script).
Proof.
  destruct s as [m tr n v]. cbn [s_mech]. intros [->| ->].
  - exists (XGssapiC (GcCompleted (Some (c ++ [GWrap conf input], conf)))).
    split; [left; reflexivity|]. unfold session_encode. apply protect_session. reflexivity.
  - exists (XGssapiS (GsDone (Some (c ++ [GWrap conf input], conf)))).
    split; [right; reflexivity|]. unfold session_encode. apply protect_session. reflexivity.
Qed.
Theorem decode_sends e s c conf input script : protects (s_mech s) c conf ->
  exists after, protects after (c ++ [GUnwrap input]) conf /\
    sends (e_gss_unwrap e c input) (length input) script after
      (session_decode e s input script).
Proof.
  destruct s as [m tr n v]. cbn [s_mech]. intros [->| ->].
  - exists (XGssapiC (GcCompleted (Some (c ++ [GUnwrap input], conf)))).
    split; [left; reflexivity|]. unfold session_decode. apply protect_session. reflexivity.
  - exists (XGssapiS (GsDone (Some (c ++ [GUnwrap input], conf)))).
    split; [right; reflexivity|]. unfold session_decode. apply protect_session. reflexivity.
Qed.
(** A layer was negotiated exactly if the session reports one. *)
Theorem has_layer_protects s :
  has_security_layer s = true <-> exists c conf, protects (s_mech s) c conf.
Proof.
  unfold has_security_layer, protects. split.
  - destruct (s_mech s) as [| | | | | | | | | | | | | |[| | |[[c conf]|]|]|[| | | |[[c conf]|]|]];
      try discriminate; intros _; exists c, conf; auto.
  - intros [c [conf [->| ->]]]; reflexivity.
Qed.
Theorem no_layer_refused e s input script : has_security_layer s = false ->
  session_encode e s input script = (Err ENoSecurityLayer, [], s) /\
  session_decode e s input script = (Err ENoSecurityLayer, [], s).
Proof.
  destruct s as [m tr n v]. unfold has_security_layer. cbn [s_mech].
  destruct m as [| | | | | | | | | | | | | |[| | |[[c conf]|]|]|[| | | |[[c conf]|]|]];
    try discriminate; intros _; split; reflexivity.
Qed.

(** C53: the context is kept if the first token establishes it. *)
Theorem server_single_leg e s input script out s1 :
  s_mech s = XGssapiS GsInitial -> step e s (Some input) script = (Ok Running, out, s1) ->
  e_gss_complete e [GAccept; GStep (Some input)] = true ->
  exists offer, s_mech s1 = XGssapiS (GsInstalled [GAccept; GStep (Some input)] offer) \/
    exists size, s_mech s1 =
      XGssapiS (GsFinal [GAccept; GStep (Some input); GWrap false (offer :: size)] offer).
Proof.
  intros Hs H Hc. destruct (step_server _ _ _ _ _ _ _ _ Hs H) as [l' [w' [K [-> _]]]].
  unfold gss_server_step in K. inv_bind K. injection H0 as <- <- <-.
  inv_bind K. injection H0 as <- <- <-. destruct (e_gss_cred e); [|discriminate].
  unfold gss_server_pending in K. inv_bind K. apply gss_try_ok in H0. destruct H0 as [_ [-> ->]].
  cbv zeta in K. change ([GAccept] ++ [GStep (Some input)]) with [GAccept; GStep (Some input)] in K.
  rewrite Hc in K. inv_bind K. clear H0. inv_bind K. apply gss_try_ok in H0.
  destruct H0 as [_ [-> ->]]. destruct (sl_is_empty _); [discriminate|].
  inv_bind K. injection H0 as <- <- <-. exists (gss_mask a1 (unwrap_layer a0)).
  destruct a as [t|].
  - left. inv_bind K. apply write_all_ok in H0. destruct H0 as [-> _]. injection K as <- _.
    reflexivity.
  - right. inv_bind K. injection H0 as <- <- <-.
    unfold gss_server_installed in K. cbv zeta in K. inv_bind K. apply gss_try_ok in H0.
    destruct H0 as [_ [-> ->]]. inv_bind K. apply write_all_ok in H0. destruct H0 as [-> _].
    inv_bind K. injection H0 as <- <- <-. injection K as <- _.
    destruct (has_conf _ || has_integ _); eexists; reflexivity.
Qed.

(** C64: which final tokens a server accepts. *)
Lemma known_from_bits b : known_layers b -> from_bits b = Some b.
Proof.
  destruct b as [b0 b1 b2 b3 b4 b5 b6 b7]. intros H. cbn [from_bits].
  assert (F : forall n, (2 < n)%N ->
    N.testbit (Ascii.N_of_ascii (Ascii b0 b1 b2 b3 b4 b5 b6 b7)) n = false).
  { intros n Hn. destruct (N.testbit _ n) eqn:E; [|reflexivity]. apply H in E. lia. }
  pose proof (F 3%N eq_refl) as F3. pose proof (F 4%N eq_refl) as F4.
  pose proof (F 5%N eq_refl) as F5. pose proof (F 6%N eq_refl) as F6.
  pose proof (F 7%N eq_refl) as F7. clear H F.
  destruct b3; [destruct b0, b1, b2, b4, b5, b6, b7; discriminate|].
  destruct b4; [destruct b0, b1, b2, b5, b6, b7; discriminate|].
  destruct b5; [destruct b0, b1, b2, b6, b7; discriminate|].
  destruct b6; [destruct b0, b1, b2, b7; discriminate|].
  destruct b7; [destruct b0, b1, b2; discriminate|]. reflexivity.
Qed.
Lemma sl_and_share a b l : has l a = true -> has l b = true -> sl_is_empty (sl_and a b) = false.
Proof.
  intros H1 H2. destruct (sl_is_empty (sl_and a b)) eqn:E; [|reflexivity].
  unfold sl_is_empty in E. apply Ascii.eqb_eq in E.
  assert (K : has l (sl_and a b) = true) by (rewrite has_and, H1, H2; reflexivity).
  rewrite E in K. destruct l; discriminate K.
Qed.

Theorem final_token e s c offer token script t r out s' :
  s_mech s = XGssapiS (GsFinal c offer) -> e_gss_unwrap e c token = Some t ->
  step e s (Some token) script = (r, out, s') ->
  out = [] /\
  ((exists choice b1 b2 b3, t = [choice; b1; b2; b3] /\ known_layers choice /\
      (exists l, layer_in l choice /\ layer_in l offer) /\ r = Ok (Finished false)) \/
   (~ (exists choice b1 b2 b3, t = [choice; b1; b2; b3] /\ known_layers choice /\
         exists l, layer_in l choice /\ layer_in l offer) /\
    r = Err (EMech MGssBadFinalToken) /\ s_mech s' = XGssapiS GsErrored)).
Proof.
  intros Em Hu H. destruct (step_server _ _ _ _ _ _ _ _ Em H) as [l' [w' [K [Em' [_ ->]]]]].
  rewrite Em'. clear Em' Em H. unfold gss_server_step in K. unfold bind at 1, getl in K.
  unfold bind at 1, setl in K. unfold bind at 1, gss_try in K. rewrite Hu in K. unfold ret at 1 in K.
  cbv zeta in K.
  destruct t as [|b0 [|b1 [|b2 [|b3 [|b4 t]]]]];
    try (injection K as <- <- <-; split; [reflexivity|]; right; split; [|auto];
         intros [x [y [u [v [E _]]]]]; discriminate).
  destruct (from_bits b0) as [sel|] eqn:Eb.
  - pose proof (from_bits_known _ _ Eb) as Hk. pose proof (from_bits_same _ _ Eb). subst sel.
    unfold sl_intersects in K. rewrite Bool.negb_involutive in K.
    destruct (sl_is_empty (sl_and b0 offer)) eqn:Ee.
    + injection K as <- <- <-. split; [reflexivity|]. right. split; [|auto].
      intros [x [y [u [v [E [_ [l [X1 X2]]]]]]]]. injection E as <- _ _ _.
      rewrite layer_has in X1, X2. rewrite (sl_and_share _ _ _ X1 X2) in Ee. discriminate.
    + injection K as <- <- <-. split; [reflexivity|]. left. exists b0, b1, b2, b3.
      split; [reflexivity|]. split; [exact Hk|]. split; [|reflexivity].
      destruct (sl_and_known _ _ _ Eb Ee) as [x [X1 X2]]. exists x. rewrite !layer_has. auto.
  - injection K as <- <- <-. split; [reflexivity|]. right. split; [|auto].
    intros [x [y [u [v [E [Hk _]]]]]]. injection E as <- _ _ _.
    rewrite (known_from_bits _ Hk) in Eb. discriminate.
Qed.
