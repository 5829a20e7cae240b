(** Lemmas about whole sessions. *)
From Coq Require Import Lia.
From Verif Require Import Bytes BytesFacts Base64 Base64Facts Types World CallbackSpec WorldFacts
  MonadFacts Frame Sim Local Simple OAuth Scram Gssapi Session Registry Spec_Simple Spec_Registry
  Spec_Session Proof_Simple Proof_Registry.
Open Scope m_scope.

(** * Validation results *)

Fixpoint val_after (e : env) (tr evs : list event) (slot : option bytes) : option bytes :=
  match evs with
  | [] => slot
  | ev :: r =>
      val_after e (tr ++ [ev]) r
        (match ev with
         | EvValidate c => snd (run_validate (e_vtag e) (e_vcb e tr (e_sd e) c) slot)
         | _ => slot
         end)
  end.

Lemma val_after_app e tr a b slot :
  val_after e tr (a ++ b) slot = val_after e (tr ++ a) b (val_after e tr a slot).
Proof.
  revert tr slot; induction a as [|ev a IH]; intros tr slot; simpl.
  - rewrite app_nil_r. reflexivity.
  - rewrite IH, <- app_assoc. reflexivity.
Qed.

Definition vfr (e : env) (w w' : world) : Prop :=
  exists evs, w_trace w' = w_trace w ++ evs /\ w_val w' = val_after e (w_trace w) evs (w_val w).

Lemma vfr_frame e : frame (vfr e).
Proof.
  split.
  - intros w. exists []. rewrite app_nil_r. split; reflexivity.
  - intros a b c [e1 [T1 V1]] [e2 [T2 V2]]. exists (e1 ++ e2).
    rewrite T2, T1, app_assoc. split; [reflexivity|].
    rewrite V2, V1, T1, val_after_app. reflexivity.
Qed.
Lemma vfr_admits e ev : (forall c, ev <> EvValidate c) -> admits (vfr e) ev.
Proof.
  intros H w. exists [ev]. split; [reflexivity|]. simpl.
  destruct ev; try reflexivity. exfalso. eapply H; reflexivity.
Qed.
Lemma vfr_asks e q : asks (vfr e) q.
Proof. repeat split; intros; apply vfr_admits; intros; discriminate. Qed.
Lemma vfr_writes e : writes (vfr e).
Proof.
  intros p w w' [Ho [Ht [Hr [Hv Hs]]]]. exists []. rewrite app_nil_r. split; assumption.
Qed.
Lemma vfr_draws e : draws_ok (vfr e).
Proof. intros w. exists []. rewrite app_nil_r. split; reflexivity. Qed.
Lemma vfr_validate {L} e c : keeps (vfr e) (@validate L e c).
Proof.
  intros l w. unfold validate.
  destruct (run_validate _ _ _) as [r slot] eqn:E.
  assert (H : vfr e w (mk_world (w_out w) (w_script w) (w_trace w ++ [EvValidate c])
                       (w_rng w) slot)).
  { exists [EvValidate c]. simpl. rewrite E. split; reflexivity. }
  destruct r; exact H.
Qed.

Ltac vfr_done :=
  first [ apply vfr_validate | apply vfr_asks | apply vfr_writes | apply vfr_draws
        | intros; apply vfr_admits; intros; discriminate ].

Lemma step_vfr e input : keeps (vfr e) (mech_step e input).
Proof.
  pose proof (vfr_frame e) as F. unfold mech_step.
  apply (keeps_bind _ F); [apply (keeps_getl _ F)|]. intros m.
  destruct m; unfold_steps; repeat (first [ keep_step F | vfr_done ]).
Qed.
Lemma encode_vfr e input : keeps (vfr e) (mech_encode e input).
Proof.
  pose proof (vfr_frame e) as F. unfold mech_encode, gss_client_encode, gss_server_encode.
  unfold_steps. repeat (first [ keep_step F | vfr_done ]).
Qed.
Lemma decode_vfr e input : keeps (vfr e) (mech_decode e input).
Proof.
  pose proof (vfr_frame e) as F. unfold mech_decode, gss_client_decode, gss_server_decode.
  unfold_steps. repeat (first [ keep_step F | vfr_done ]).
Qed.

Lemma run_vfr {A} e (m : M mech A) s script r out s' :
  keeps (vfr e) m -> run m s script = (r, out, s') ->
  exists evs, s_trace s' = s_trace s ++ evs /\ s_val s' = val_after e (s_trace s) evs (s_val s).
Proof.
  intros K H. apply run_ok in H. destruct H as [m' [w' [H [_ ->]]]].
  specialize (K (s_mech s) (mk_world [] script (s_trace s) (s_rng s) (s_val s))).
  rewrite H in K. destruct K as [evs [T V]]. exists evs. split; assumption.
Qed.

Lemma calls_vfr e s s' : calls e s s' ->
  exists evs, s_trace s' = s_trace s ++ evs /\ s_val s' = val_after e (s_trace s) evs (s_val s).
Proof.
  intros H. induction H as [s|s s1 s2 i sc r o H _ IH|s s1 s2 i sc r o H _ IH
                           |s s1 s2 i sc r o H _ IH].
  { exists []. rewrite app_nil_r. split; reflexivity. }
  all: (apply (run_vfr e) in H; [|first [apply step_vfr|apply encode_vfr|apply decode_vfr]];
    destruct H as [e1 [T1 V1]]; destruct IH as [e2 [T2 V2]]; exists (e1 ++ e2);
    rewrite T2, T1, app_assoc; split; [reflexivity|]; rewrite V2, V1, T1, val_after_app;
    reflexivity).
Qed.

(** What a validation callback does, call by call. *)
Lemma run_validate_calls tag p slot :
  exists cs x, vfollows p cs x /\
    vanswers tag (match slot with Some _ => true | None => false end) cs /\
    run_validate tag p slot
    = (x, match slot with Some y => Some y | None => first_final tag cs end).
Proof.
  revert slot; induction p as [x|t y k IH|t f k IH|t k IH]; intros slot; cbn [run_validate].
  - exists [], x. split; [constructor|]. split; [constructor|]. destruct slot; reflexivity.
  - destruct (Nat.eqb t tag) eqn:Et.
    + destruct (IH (match slot with None => Some y | s => s end)) as [cs [x [F [A R]]]].
      exists (KFinalize t y :: cs), x. split; [constructor; assumption|]. split.
      * constructor. rewrite Et, Bool.orb_true_r. destruct slot; assumption.
      * rewrite R. simpl. rewrite Et. destruct slot; reflexivity.
    + destruct (IH slot) as [cs [x [F [A R]]]].
      exists (KFinalize t y :: cs), x. split; [constructor; assumption|]. split.
      * constructor. rewrite Et, Bool.orb_false_r. assumption.
      * rewrite R. simpl. rewrite Et. reflexivity.
  - destruct (Nat.eqb t tag) eqn:Et.
    + destruct slot as [s|].
      * destruct (IH None (Some s)) as [cs [x [F [A R]]]].
        exists (KWith t f false None :: cs), x. split; [constructor; assumption|]. split.
        -- constructor; auto.
        -- exact R.
      * apply Nat.eqb_eq in Et. subst t. destruct f as [v|y].
        -- destruct (IH (Some v) None) as [cs [x [F [A R]]]].
           exists (KWith tag (inl v) true (Some v) :: cs), x.
           split; [constructor; assumption|]. split; [constructor; assumption|exact R].
        -- destruct (IH None (Some y)) as [cs [x [F [A R]]]].
           exists (KWith tag (inr y) true None :: cs), x.
           split; [constructor; assumption|]. split; [constructor; assumption|].
           rewrite R. simpl. rewrite Nat.eqb_refl. reflexivity.
    + destruct (IH None slot) as [cs [x [F [A R]]]].
      exists (KWith t f false None :: cs), x. split; [constructor; assumption|]. split.
      * constructor; [right; apply Nat.eqb_neq; assumption|assumption].
      * rewrite R. simpl. rewrite Et. destruct f; reflexivity.
  - destruct (IH (Nat.eqb t tag) slot) as [cs [x [F [A R]]]].
    exists (KVIs t (Nat.eqb t tag) :: cs), x. split; [constructor; assumption|].
    split; [constructor; assumption|]. exact R.
Qed.

Lemma calls_unique p tag :
  forall full cs x cs' x', vfollows p cs x -> vanswers tag full cs ->
    vfollows p cs' x' -> vanswers tag full cs' -> cs = cs' /\ x = x'.
Proof.
  induction p as [r|t y k IH|t f k IH|t k IH]; intros full cs x cs' x' F A F' A'.
  - inversion F; inversion F'; subst. auto.
  - inversion F; inversion F'; subst. inversion A; inversion A'; subst.
    match goal with
      | HF : vfollows ?p ?c1 _, HF' : vfollows ?p ?c2 _,
        HA : vanswers ?tg ?full ?c1, HA' : vanswers ?tg ?full ?c2 |- _ =>
          destruct (IH _ _ _ _ _ HF HA HF' HA') as [-> ->]
      end; auto.
  - inversion F; inversion F'; subst.
    inversion A; inversion A'; subst; try congruence;
    try (match goal with H : _ \/ _ |- _ => destruct H; congruence end).
    all: repeat match goal with H : inl ?a = inl ?b |- _ => injection H as H; subst end.
    all: match goal with
      | HF : vfollows ?p ?c1 _, HF' : vfollows ?p ?c2 _,
        HA : vanswers ?tg ?full ?c1, HA' : vanswers ?tg ?full ?c2 |- _ =>
          destruct (IH _ _ _ _ _ _ HF HA HF' HA') as [-> ->]
      end; auto.
  - inversion F; inversion F'; subst. inversion A; inversion A'; subst.
    match goal with
      | HF : vfollows ?p ?c1 _, HF' : vfollows ?p ?c2 _,
        HA : vanswers ?tg ?full ?c1, HA' : vanswers ?tg ?full ?c2 |- _ =>
          destruct (IH _ _ _ _ _ _ HF HA HF' HA') as [-> ->]
      end; auto.
Qed.

Lemma produces_run e tr c o :
  produces e tr c o <-> o = snd (run_validate (e_vtag e) (e_vcb e tr (e_sd e) c) None).
Proof.
  destruct (run_validate_calls (e_vtag e) (e_vcb e tr (e_sd e) c) None) as [cs [x [F [A R]]]].
  rewrite R. simpl. unfold produces. split.
  - intros [cs' [x' [F' [A' ->]]]].
    destruct (calls_unique _ _ _ _ _ _ _ F A F' A') as [-> _]. reflexivity.
  - intros ->. eauto.
Qed.

Lemma val_after_some e tr evs x : val_after e tr evs (Some x) = Some x.
Proof.
  revert tr; induction evs as [|ev evs IH]; intros tr; simpl; [reflexivity|].
  destruct ev; try apply IH. rewrite run_validate_some. apply IH.
Qed.

Lemma first_produced_val e evs : forall tr o,
  first_produced e tr evs o <-> o = val_after e tr evs None.
Proof.
  induction evs as [|ev evs IH]; intros tr o; simpl.
  - split; [intros H; inversion H; reflexivity|]. intros ->. constructor.
  - split.
    + intros H. inversion H as [|? ? ? ? Hn Hr|? ? ? ? Hp Hr|? ? ? ? Hp]; subst.
      * apply IH in Hr. subst o. destruct ev; try reflexivity. exfalso; eapply Hn; reflexivity.
      * apply produces_run in Hp. rewrite <- Hp. apply IH. assumption.
      * apply produces_run in Hp. rewrite <- Hp. symmetry. apply val_after_some.
    + intros ->. destruct ev;
        try (apply fp_other; [intros; discriminate|apply IH; reflexivity]).
      destruct (snd (run_validate (e_vtag e) (e_vcb e tr (e_sd e) c) None)) as [x|] eqn:E.
      * rewrite val_after_some. apply fp_some. apply produces_run. congruence.
      * apply fp_none; [apply produces_run; congruence|]. apply IH. reflexivity.
Qed.

Theorem validation_first e s s' o : s_val s = None -> calls e s s' ->
  exists evs, new_events s s' evs /\
    (first_produced e (s_trace s) evs o <-> fst (validation s') = o).
Proof.
  intros Hv Hc. destruct (calls_vfr _ _ _ Hc) as [evs [T V]]. exists evs. split; [exact T|].
  rewrite first_produced_val. simpl. rewrite V, Hv. split; congruence.
Qed.
Theorem validation_kept e s s' x : s_val s = Some x -> calls e s s' ->
  fst (validation s') = Some x.
Proof.
  intros Hv Hc. destruct (calls_vfr _ _ _ Hc) as [evs [T V]]. simpl. rewrite V, Hv.
  apply val_after_some.
Qed.

Lemma val_after_calm e tr evs slot : validations evs = [] -> val_after e tr evs slot = slot.
Proof.
  revert tr; induction evs as [|ev evs IH]; intros tr H; simpl in *; [reflexivity|].
  destruct ev; try discriminate; apply IH; assumption.
Qed.
Theorem validation_taken e s s' evs : calls e (snd (validation s)) s' ->
  new_events s s' evs -> validations evs = [] -> fst (validation s') = None.
Proof.
  intros Hc Hn Hv. destruct (calls_vfr _ _ _ Hc) as [evs' [T V]]. unfold new_events in Hn.
  simpl in *. rewrite T in Hn. apply app_inv_head in Hn. subst evs'.
  rewrite V. apply val_after_calm. exact Hv.
Qed.

(** * Security layers *)

Definition is_gss (m : mech) : bool :=
  match m with XGssapiC _ | XGssapiS _ => true | _ => false end.

Lemma mech_step_kind e input m w r m' w' :
  mech_step e input m w = (r, m', w') -> is_gss m' = is_gss m.
Proof.
  unfold mech_step, bind, getl. destruct m; intros H; apply on_eq in H;
    destruct H as [l' [_ ->]]; reflexivity.
Qed.
Lemma mech_encode_kind e input m w r m' w' :
  mech_encode e input m w = (r, m', w') -> is_gss m' = is_gss m.
Proof.
  unfold mech_encode, bind, getl, fail. destruct m; intros H;
    try (injection H as <- <- <-; reflexivity); apply on_eq in H;
    destruct H as [l' [_ ->]]; reflexivity.
Qed.
Lemma mech_decode_kind e input m w r m' w' :
  mech_decode e input m w = (r, m', w') -> is_gss m' = is_gss m.
Proof.
  unfold mech_decode, bind, getl, fail. destruct m; intros H;
    try (injection H as <- <- <-; reflexivity); apply on_eq in H;
    destruct H as [l' [_ ->]]; reflexivity.
Qed.

Lemma calls_kind e s s' : calls e s s' -> is_gss (s_mech s') = is_gss (s_mech s).
Proof.
  intros H. induction H as [s|s s1 s2 i sc r o H _ IH|s s1 s2 i sc r o H _ IH
                           |s s1 s2 i sc r o H _ IH]; [reflexivity|..];
    rewrite IH; apply run_ok in H; destruct H as [m' [w' [H [_ ->]]]]; simpl.
  - eapply mech_step_kind; eassumption.
  - eapply mech_encode_kind; eassumption.
  - eapply mech_decode_kind; eassumption.
Qed.

Lemma layer_false e s : mech_has_layer (s_mech s) = false -> layerless e s.
Proof.
  intros H. split; [exact H|]. intros input script.
  unfold session_encode, session_decode, run, mech_encode, mech_decode, bind, getl.
  destruct s as [m tr n v]. cbn [s_mech s_trace s_rng s_val] in *.
  destruct m as [| |st|st| | | | |st|st|st|st|a st|a st|st|st]; try (split; reflexivity).
  - unfold on, gss_client_encode, gss_client_decode, bind, getl. simpl in H.
    unfold gss_client_layer in H. destruct st as [| | |[[c b]|]|]; try discriminate H;
      split; reflexivity.
  - unfold on, gss_server_encode, gss_server_decode, bind, getl. simpl in H.
    unfold gss_server_layer in H. destruct st as [| | | |[[c b]|]|]; try discriminate H;
      split; reflexivity.
Qed.

Lemma started_gss reg m s : started reg m s -> is_gss (s_mech s) = true -> m = DGssapi.
Proof.
  intros [[H|[H|[cb [offered [prefer H]]]]] _] G.
  - destruct m as [a [|]| | | | | | | |c]; simpl in H; try (injection H as H; rewrite <- H in G;
      discriminate G); [reflexivity|]. destruct (cu_client c); discriminate.
  - destruct m as [a [|]| | | | | | | |c]; simpl in H; try (injection H as H; rewrite <- H in G;
      discriminate G); [reflexivity|]. destruct (cu_server c); discriminate.
  - apply start_inv in H. destruct H as [_ [_ [H _]]].
    inversion H; subst; try reflexivity;
    match goal with E : _ = s_mech s |- _ => rewrite <- E in G; discriminate G end.
Qed.

Theorem no_layer reg m e s s' : started reg m s -> m <> DGssapi -> calls e s s' -> layerless e s'.
Proof.
  intros Hs Hm Hc. apply layer_false.
  assert (is_gss (s_mech s') = false).
  { rewrite (calls_kind _ _ _ Hc). destruct (is_gss (s_mech s)) eqn:E; [|reflexivity].
    exfalso. apply Hm. eapply started_gss; eassumption. }
  destruct (s_mech s'); try reflexivity; discriminate.
Qed.

Definition finishes (r : res serr state) : Prop := exists b, r = Ok (Finished b).

Lemma gss_client_ends e input :
  ends (fun st => gss_client_layer st = false) finishes (gss_client_step e input).
Proof.
  unfold gss_client_step. apply ends_bind; [apply lkeeps_getl|]. intros st.
  apply ends_bind; [apply lkeeps_setl; reflexivity|]. intros _.
  assert (Hp : forall c, lkeeps (fun st => gss_client_layer st = false)
                           (gss_client_pending e c input)).
  { intros c. unfold gss_client_pending, gss_check_acceptable.
    repeat (first [lkeep_step | reflexivity]). }
  destruct st as [|c|c acc|lay|].
  - apply ends_lkeeps. repeat (first [lkeep_step | apply Hp]).
  - apply ends_lkeeps. apply Hp.
  - destruct input as [input|]; [|apply ends_lkeeps, lkeeps_fail].
    apply ends_bind; [repeat lkeep_step|]. intros u.
    destruct u as [|b0 [|b1 [|b2 [|b3 [|]]]]]; try (apply ends_lkeeps, lkeeps_fail).
    destruct (from_bits b0); [|apply ends_lkeeps; lkeep_step].
    destruct (gss_choose _) as [[resp wrap]|]; [|apply ends_lkeeps; lkeep_step].
    apply ends_bind; [repeat lkeep_step|]. intros t.
    apply ends_bind; [repeat lkeep_step|]. intros _.
    apply ends_set_ret. eexists; reflexivity.
  - apply ends_lkeeps. lkeep_step.
  - apply ends_lkeeps. lkeep_step.
Qed.

Lemma gss_server_ends e input :
  ends (fun st => gss_server_layer st = false) finishes (gss_server_step e input).
Proof.
  unfold gss_server_step. apply ends_bind; [apply lkeeps_getl|]. intros st.
  apply ends_bind; [apply lkeeps_setl; reflexivity|]. intros _.
  assert (Hp : forall c, lkeeps (fun st => gss_server_layer st = false)
                           (gss_server_pending e c input)).
  { intros c. unfold gss_server_pending, gss_server_installed.
    repeat (first [lkeep_step | reflexivity]). }
  destruct st as [|c|c acc|c acc|lay|].
  - apply ends_lkeeps. repeat (first [lkeep_step | apply Hp]).
  - apply ends_lkeeps. apply Hp.
  - apply ends_lkeeps. unfold gss_server_installed. repeat (first [lkeep_step | reflexivity]).
  - destruct input as [input|]; [|apply ends_lkeeps, lkeeps_fail].
    apply ends_bind; [repeat lkeep_step|]. intros u.
    destruct u as [|b0 [|b1 [|b2 [|b3 [|]]]]]; try (apply ends_lkeeps, lkeeps_fail).
    destruct (from_bits b0); [|apply ends_lkeeps; lkeep_step].
    destruct (negb _); [apply ends_lkeeps; lkeep_step|].
    apply ends_set_ret. eexists; reflexivity.
  - apply ends_lkeeps. lkeep_step.
  - apply ends_lkeeps. lkeep_step.
Qed.

Lemma step_layer e s input script r out s' :
  mech_has_layer (s_mech s) = false -> step e s input script = (r, out, s') ->
  mech_has_layer (s_mech s') = false \/ finishes r.
Proof.
  intros Hl H. apply run_ok in H. destruct H as [m' [w' [H [_ ->]]]]. simpl.
  unfold mech_step, bind, getl in H.
  destruct (s_mech s) as [| |st|st| | | | |st|st|st|st|a st|a st|st|st] eqn:Em;
    apply on_eq in H; destruct H as [l' [H ->]]; simpl;
    try (left; reflexivity).
  - destruct (gss_client_ends e input st
      (mk_world [] script (s_trace s) (s_rng s) (s_val s)) Hl) as [K|K]; rewrite H in K; auto.
  - destruct (gss_server_ends e input st
      (mk_world [] script (s_trace s) (s_rng s) (s_val s)) Hl) as [K|K]; rewrite H in K; auto.
Qed.

Lemma unfinished_layer e s s' : unfinished e s s' ->
  mech_has_layer (s_mech s) = false -> mech_has_layer (s_mech s') = false.
Proof.
  intros H. induction H as [s|s s1 s2 i sc r o Hr H _ IH|s s1 s2 i sc r o H _ IH
                           |s s1 s2 i sc r o H _ IH]; intros Hl; [exact Hl|..]; apply IH.
  - destruct (step_layer _ _ _ _ _ _ _ Hl H) as [K|[b K]]; [exact K|]. exfalso; eapply Hr; eauto.
  - destruct (layer_false e s Hl) as [_ K]. destruct (K i sc) as [K1 _]. congruence.
  - destruct (layer_false e s Hl) as [_ K]. destruct (K i sc) as [_ K1]. congruence.
Qed.

Lemma started_layer reg m s : started reg m s -> mech_has_layer (s_mech s) = false.
Proof.
  intros [[H|[H|[cb [offered [prefer H]]]]] _].
  - destruct m as [a [|]| | | | | | | |c]; simpl in H; try (injection H as H; rewrite <- H;
      reflexivity). destruct (cu_client c); discriminate.
  - destruct m as [a [|]| | | | | | | |c]; simpl in H; try (injection H as H; rewrite <- H;
      reflexivity). destruct (cu_server c); discriminate.
  - apply start_inv in H. destruct H as [_ [_ [H _]]]. inversion H; reflexivity.
Qed.

Theorem no_layer_before reg m e s s' : started reg m s -> unfinished e s s' -> layerless e s'.
Proof.
  intros Hs Hu. apply layer_false. eapply unfinished_layer; [eassumption|].
  eapply started_layer; eassumption.
Qed.

(** * Writers *)

Theorem step_complete e s input script st out s' :
  polite e -> no_zero script \/ plain_writes (s_mech s) = true ->
  step e s input script = (Ok st, out, s') -> step e s input [] = (Ok st, out, s').
Proof.
  intros Hp Hz H. apply run_ok in H. destruct H as [m' [w' [H [-> ->]]]].
  unfold step, run.
  set (w := mk_world [] script (s_trace s) (s_rng s) (s_val s)) in *.
  change (mk_world [] [] (s_trace s) (s_rng s) (s_val s)) with (perfect w).
  assert (K : io_failure (Ok st) \/ (script_left (w_script w) (w_script w') /\
              mech_step e input (s_mech s) (perfect w) = (Ok st, m', perfect w'))).
  { destruct Hz as [Hz|Hm].
    - exact (step_sim e input Hp _ w _ _ _ Hz H).
    - eapply step_sim_plain; eauto. }
  destruct K as [[]|[_ K]]. rewrite K. reflexivity.
Qed.

(** * step64 *)

Theorem step64_encoded e s b r out s' : step e s (Some b) [] = (r, out, s') ->
  step64 e s (Some (encode b)) = (r, encode out, s').
Proof. intros H. unfold step64. rewrite decode_encode, H. reflexivity. Qed.
Theorem step64_none e s r out s' : step e s None [] = (r, out, s') ->
  step64 e s None = (r, encode out, s').
Proof. intros H. unfold step64. rewrite H. reflexivity. Qed.
Theorem step64_reject e s x : (forall b, x <> encode b) ->
  step64 e s (Some x) = (Err EBase64, [], s).
Proof.
  intros H. unfold step64. destruct (decode x) as [b|] eqn:E; [|reflexivity].
  apply decode_canonical in E. exfalso. eapply H; eauto.
Qed.
