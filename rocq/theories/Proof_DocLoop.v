(** The documented client loop (C112). *)
From Coq Require Import Lia.
From Verif Require Import Bytes Types World CallbackSpec Frame Base64 Simple OAuth ScramParser Scram Gssapi Session Registry DocLoop
  Spec_Simple Spec_Registry Spec_Order Spec_History Spec_Errors Spec_Talk Spec_Scram Spec_ScramText
  Proof_Registry Proof_Order Proof_History Proof_Errors Proof_Talk Proof_Scram Proof_ScramMain Proof_ScramProps Proof_ScramCor Proof_ScramPanic.

Lemma ongoing_history e s0 s : ongoing e s0 s -> exists n, history e s0 n s.
Proof. induction 1 as [|s1 i sc o s2 H [n IH] E]; [exists 0; constructor|]. exists (S n). econstructor; eassumption. Qed.

Lemma started e reg cb prefer offered initial script more r out s :
  sasl_authenticate e reg cb prefer offered initial script more = Some (r, out, Some s) ->
  exists s0 m, begun reg SClient m s0 /\ In m reg /\ s0 = mk_session (s_mech s0) [] 0 None /\
    client_start reg cb prefer offered = Ok (Builtin (s_mech s0), m) /\
    doc_loop e s0 (if are_we_first SClient m then None else Some initial) script more = (r, out, s).
Proof.
  unfold sasl_authenticate. intros H.
  destruct (client_start reg cb prefer offered) as [[[x|c] m]|x|] eqn:E; try discriminate.
  destruct (doc_loop _ _ _ _ _) as [[r' o'] s'] eqn:D. injection H as <- <- <-.
  exists (mk_session x [] 0 None), m. destruct (start_inv _ _ _ _ _ _ E) as (I & _ & F & _).
  repeat split; try assumption.
Qed.

Lemma loop_done e reg sd m s0 s data script more x out s' :
  begun reg sd m s0 -> ongoing e s0 s -> ~ (sd = SServer /\ m = DGssapi) -> ~ invents e EMechanismDone ->
  doc_loop e s data script more = (DocErrored x, out, s') -> x <> EMechanismDone.
Proof.
  intros B O G N. revert s O data script out. induction more as [|[d sc] more IH]; intros s O data script out;
    cbn [doc_loop]; destruct (step e s data script) as [[[st|y|] o] s1] eqn:E; try discriminate.
  - destruct (is_running st); discriminate.
  - intros [= <- <- <-] ->. exact (not_done_before _ _ _ _ _ _ _ _ _ _ B O G N E).
  - destruct st; [|discriminate]. cbn [is_running].
    destruct (doc_loop e s1 d sc more) as [[r2 o2] s2] eqn:L. intros [= -> <- <-].
    eapply IH; [|exact L]. econstructor; eassumption.
  - intros [= <- <- <-] ->. exact (not_done_before _ _ _ _ _ _ _ _ _ _ B O G N E).
Qed.

Lemma loop_input e s data script more x out s' :
  data <> None -> Forall (fun p => fst p <> None) more -> ~ invents e EInputDataRequired ->
  doc_loop e s data script more = (DocErrored x, out, s') -> x <> EInputDataRequired.
Proof.
  intros D F N. revert s data D script out. induction F as [|[d sc] more Fd _ IH]; intros s data D script out;
    cbn [doc_loop]; destruct (step e s data script) as [[[st|y|] o] s1] eqn:E; try discriminate.
  - destruct (is_running st); discriminate.
  - intros [= <- <- <-] ->. exact (D (input_missing _ _ _ _ _ _ E N)).
  - destruct st; [|discriminate]. cbn [is_running].
    destruct (doc_loop e s1 d sc more) as [[r2 o2] s2] eqn:L. intros [= -> <- <-].
    exact (IH _ _ Fd _ _ L).
  - intros [= <- <- <-] ->. exact (D (input_missing _ _ _ _ _ _ E N)).
Qed.

Lemma gss_first_input e s script out s' :
  s_mech s = XGssapiC GcInitial -> ~ invents e EInputDataRequired ->
  step e s None script <> (Err EInputDataRequired, out, s').
Proof.
  intros Em N H. unfold step, run in H. rewrite Em in H.
  set (w := mk_world [] script (s_trace s) (s_rng s) (s_val s)) in *.
  assert (K : sound_at (cause e (XGssapiC GcInitial) (Some [])) (mech_step e None) (XGssapiC GcInitial) w).
  { unfold mech_step. forward. apply sound_at_on. unfold_steps. forward.
    match goal with |- sound_at ?C ?m ?l ?w => apply ((fun (H : sound C m) => H l w)) end.
    repeat sound_step. }
  unfold sound_at in K. destruct (mech_step e None (XGssapiC GcInitial) w) as [[r1 m1] w1].
  injection H as -> <- <-. destruct K as [evs [T [_ K]]]. specialize (K _ eq_refl). inversion K; subst; by_app || discriminate.
Qed.

Lemma client_first_is m s reg : begun reg SClient m s -> are_we_first SClient m = true -> SClient = initiator m.
Proof. intros B. inversion B; subst; cbn; congruence. Qed.

Theorem auth_done e reg cb prefer offered initial script more x out s :
  ~ invents e EMechanismDone ->
  sasl_authenticate e reg cb prefer offered initial script more = Some (DocErrored x, out, s) ->
  x <> EMechanismDone.
Proof.
  intros N H. destruct s as [s|].
  - destruct (started _ _ _ _ _ _ _ _ _ _ _ H) as (s0 & m & B & _ & _ & _ & L).
    refine (loop_done _ _ _ _ _ _ _ _ _ _ _ _ B (ongoing_start _ _) _ N L). intros [K _]. discriminate.
  - unfold sasl_authenticate in H. destruct (client_start _ _ _ _) as [[[y|c] m]|y|]; try discriminate.
    destruct (doc_loop _ _ _ _ _) as [[? ?] ?]. discriminate.
Qed.

Theorem auth_input e reg cb prefer offered initial script more x out s :
  Forall (fun p => fst p <> None) more -> ~ invents e EInputDataRequired ->
  sasl_authenticate e reg cb prefer offered initial script more = Some (DocErrored x, out, s) ->
  x <> EInputDataRequired.
Proof.
  intros F N H. destruct s as [s|].
  2:{ unfold sasl_authenticate in H. destruct (client_start _ _ _ _) as [[[y|c] m]|y|]; try discriminate.
    destruct (doc_loop _ _ _ _ _) as [[? ?] ?]. discriminate. }
  destruct (started _ _ _ _ _ _ _ _ _ _ _ H) as (s0 & m & B & _ & _ & _ & L).
  destruct (are_we_first SClient m) eqn:W.
  2:{ refine (loop_input _ _ _ _ _ _ _ _ _ F N L). discriminate. }
  assert (K : forall o s', step e s0 None script <> (Err EInputDataRequired, o, s')).
  { intros o s' K.
    assert (D : m = DGssapi \/ m <> DGssapi) by (destruct m; (left; reflexivity) || (right; discriminate)).
    destruct D as [->|D].
    - refine (gss_first_input _ _ _ _ _ _ N K). inversion B; reflexivity.
    - rewrite (begins_without_input e reg SClient m s0 None (Some []) script B (client_first_is _ _ _ B W) D) in K.
      discriminate (input_missing _ _ _ _ _ _ K N). }
  destruct more as [|[d sc] more]; cbn [doc_loop] in L; destruct (step e s0 None script) as [[[st|y|] o] s1] eqn:E;
    try discriminate.
  - destruct (is_running st); discriminate.
  - injection L as <- <- <-. intros ->. exact (K _ _ eq_refl).
  - destruct st; [|discriminate]. cbn [is_running] in L.
    destruct (doc_loop e s1 d sc more) as [[r2 o2] s2] eqn:L2. injection L as -> <- <-.
    inversion F as [|? ? F1 F2]; subst. exact (loop_input _ _ _ _ _ _ _ _ F1 F2 N L2).
  - injection L as <- <- <-. intros ->. exact (K _ _ eq_refl).
Qed.

Lemma loop_waits e s0 s data script more out s' n :
  history e s0 n s -> doc_loop e s data script more = (DocWaits, out, s') ->
  history e s0 (n + S (length more)) s'.
Proof.
  revert s n data script out. induction more as [|[d sc] more IH]; intros s n data script out H;
    cbn [doc_loop]; destruct (step e s data script) as [[[st|y|] o] s1] eqn:E; try discriminate;
    destruct st; try discriminate; cbn [is_running].
  - intros [= <- <-]. cbn [length]. rewrite PeanoNat.Nat.add_1_r. econstructor; eassumption.
  - destruct (doc_loop e s1 d sc more) as [[r2 o2] s2] eqn:L. intros [= -> <- <-].
    assert (H1 : history e s0 (S n) s1) by (econstructor; eassumption).
    specialize (IH _ _ _ _ _ H1 L). cbn [length]. replace (n + S (S (length more))) with (S n + S (length more)) by lia.
    exact IH.
Qed.

Theorem auth_ends e reg cb prefer offered i m initial script more out s :
  client_start reg cb prefer offered = Ok (i, m) -> m <> DGssapi ->
  sasl_authenticate e reg cb prefer offered initial script more = Some (DocWaits, out, Some s) ->
  length more <= 1.
Proof.
  intros C G H. destruct (started _ _ _ _ _ _ _ _ _ _ _ H) as (s0 & m' & B & _ & _ & C' & L).
  rewrite C in C'. injection C' as _ <-.
  pose proof (loop_waits _ _ _ _ _ _ _ _ _ (history_start e s0) L) as K.
  assert (G0 : ~ is_gssapi (s_mech s0)).
  { unfold begun in B. destruct s0 as [mm t g v]. cbn [s_mech] in *. inversion B; subst; cbn; tauto. }
  pose proof (few_running _ _ _ _ G0 K). lia.
Qed.

Lemma loop_more e s data script more d sc out s' :
  doc_loop e s data script more = (DocWaits, out, s') ->
  doc_loop e s data script (more ++ [(d, sc)]) =
    (let '(r, o, s'') := doc_loop e s' d sc [] in (r, out ++ o, s'')).
Proof.
  revert s data script out. induction more as [|[d1 sc1] more IH]; intros s data script out; cbn [doc_loop app];
    destruct (step e s data script) as [[[st|y|] o] s1]; try discriminate; destruct st; try discriminate; cbn [is_running].
  - intros [= <- <-]. reflexivity.
  - destruct (doc_loop e s1 d1 sc1 more) as [[r2 o2] s2] eqn:L. intros [= -> <- <-].
    rewrite (IH _ _ _ _ L). cbn [doc_loop]. destruct (step e s2 d sc) as [[[st|y|] o3] s3]; try destruct (is_running st);
      now rewrite app_assoc.
Qed.

Lemma loop_underway e reg sd m s0 s data script more out s' :
  begun reg sd m s0 -> ongoing e s0 s -> doc_loop e s data script more = (DocWaits, out, s') ->
  underway e reg sd m s'.
Proof.
  intros B. revert s data script out. induction more as [|[d sc] more IH]; intros s data script out O;
    cbn [doc_loop]; destruct (step e s data script) as [[[st|y|] o] s1] eqn:E; try discriminate;
    destruct st; try discriminate; cbn [is_running].
  - intros [= <- <-]. exists s0, s, data, script, o. auto.
  - destruct (doc_loop e s1 d sc more) as [[r2 o2] s2] eqn:L. intros [= -> <- <-].
    refine (IH _ _ _ _ _ L). econstructor; eassumption.
Qed.

Theorem auth_silent e reg cb prefer offered i m initial script more out s sc :
  client_start reg cb prefer offered = Ok (i, m) -> m <> DGssapi -> ~ is_login m ->
  sasl_authenticate e reg cb prefer offered initial script more = Some (DocWaits, out, Some s) ->
  exists r s', sasl_authenticate e reg cb prefer offered initial script (more ++ [(None, sc)]) = Some (r, out, Some s') /\
    (r = DocDone (Finished false) \/ r = DocErrored EInputDataRequired).
Proof.
  intros C G Lo H. destruct (started _ _ _ _ _ _ _ _ _ _ _ H) as (s0 & m' & B & _ & E0 & C' & L).
  pose proof C as C1. rewrite C' in C1. injection C1 as C1 ->.
  pose proof (loop_underway _ _ _ _ _ _ _ _ _ _ _ B (ongoing_start _ _) L) as U.
  pose proof (loop_more _ _ _ _ _ None sc _ _ L) as M.
  unfold sasl_authenticate. rewrite C', <- E0, M. cbn [doc_loop].
  destruct (step e s None sc) as [[r o] s'] eqn:E.
  destruct (final_step_silent _ _ _ _ _ _ _ _ _ U Lo G E) as [-> [-> | ->]]; cbn [is_running];
    rewrite app_nil_r; do 2 eexists; (split; [reflexivity|]); auto.
Qed.

Theorem auth_scram e reg cb prefer offered i a plus initial script more st out s :
  client_start reg cb prefer offered = Ok (i, DScram a plus) ->
  no_zero script -> Forall (fun p => no_zero (snd p)) more ->
  sasl_authenticate e reg cb prefer offered initial script more = Some (DocDone st, out, Some s) ->
  exists m2 sc2 m4 sc3 rest header user bare before evs after salt n ck sk,
    let am := rfc_auth_message (first_bare user (nonce_from e 0)) m2 bare in
    more = (Some m2, sc2) :: (Some m4, sc3) :: rest /\ st = Finished false /\
    out = (header ++ first_bare user (nonce_from e 0)) ++ bare ++ lit ",p=" ++ encode (client_proof e a ck am) /\
    s_trace s = before ++ evs ++ after /\ keys_from e a evs salt n ck sk /\
    m4 = lit "v=" ++ encode (e_hmac e a sk am).
Proof.
  intros C Z Zm H. destruct (started _ _ _ _ _ _ _ _ _ _ _ H) as (s0 & m' & B & _ & E0 & C' & L).
  rewrite C in C'. injection C' as _ <-.
  change (are_we_first SClient (DScram a plus)) with true in L. cbv iota in L.
  assert (Q : exists x, s_mech s0 = XScramC a (Some (ScInitial x))).
  { unfold begun in B. destruct s0 as [mm t g v]. cbn [s_mech] in *. inversion B; subst; eexists; reflexivity. }
  destruct Q as [x Q].
  assert (G0 : s_rng s0 = 0) by (rewrite E0; reflexivity).
  destruct (step e s0 None script) as [[[st1|y|] m1] s1] eqn:E1.
  2,3: destruct more as [|[? ?] ?]; cbn [doc_loop] in L; rewrite E1 in L; discriminate.
  assert (R1 : st1 = Running) by (destruct (client_first_any _ _ _ _ _ _ _ _ _ Q Z E1) as (?&?&?&?&?&?&_&R&_); exact R).
  subst st1.
  destruct more as [|[d2 sc2] more]; cbn [doc_loop] in L; rewrite E1 in L; cbn [is_running] in L; [discriminate|].
  destruct (doc_loop e s1 d2 sc2 more) as [[r2 o2] s2'] eqn:L2. injection L as -> <- ->.
  assert (U1 : underway e reg SClient (DScram a plus) s1).
  { exists s0, s0, None, script, m1. split; [exact B|]. split; [constructor|exact E1]. }
  inversion Zm as [|? ? Z2 Zm']; subst. cbn [snd] in Z2.
  destruct (step e s1 d2 sc2) as [[[st2|y|] m3] s2] eqn:E2.
  2,3: destruct more as [|[? ?] ?]; cbn [doc_loop] in L2; rewrite E2 in L2; discriminate.
  destruct d2 as [m2|].
  2:{ destruct (scram_needs_data _ _ _ _ _ _ _ _ _ _ _ (or_intror U1) (or_introl eq_refl) E2). }
  assert (R2 : st2 = Running) by (destruct (client_verifies _ _ _ _ _ _ _ _ _ _ _ _ _ _ Q Z Z2 E1 E2) as (?&?&?&?&?&?&?&?&?&?&?&_&R&_); exact R). subst st2.
  destruct more as [|[d4 sc3] more]; cbn [doc_loop] in L2; rewrite E2 in L2; cbn [is_running] in L2; [discriminate|].
  destruct (doc_loop e s2 d4 sc3 more) as [[r3 o3] s3'] eqn:L3. injection L2 as -> <- ->.
  assert (U2 : underway e reg SClient (DScram a plus) s2).
  { exists s0, s1, (Some m2), sc2, m3. split; [exact B|]. split; [econstructor; [constructor|exact E1]|exact E2]. }
  destruct (step e s2 d4 sc3) as [[r5 m5] s3] eqn:E3.
  destruct d4 as [m4|].
  2:{ destruct more as [|[? ?] ?]; cbn [doc_loop] in L3; rewrite E3 in L3; destruct r5; try discriminate;
      destruct (scram_needs_data _ _ _ _ _ _ _ _ _ _ _ (or_intror U2) (or_introl eq_refl) E3). }
  destruct (client_final_verified _ _ _ _ _ _ _ _ _ _ _ _ _ _ _ _ _ _ _ Q Z Z2 E1 E2 E3)
    as (header & user & bare & evs & salt & n & ck & sk & M1 & N12 & K & M3 & _ & O & F & _ & _ & N23).
  destruct r5 as [st5|y|]; [|destruct more as [|[? ?] ?]; cbn [doc_loop] in L3; rewrite E3 in L3; discriminate ..].
  destruct (F _ eq_refl) as [-> M4]. destruct (N23 _ eq_refl) as (c & taken & _ & _ & N3).
  assert (X : DocDone (Finished false) = DocDone st /\ m5 = o3 /\ s3 = s).
  { destruct more as [|[? ?] ?]; cbn [doc_loop] in L3; rewrite E3 in L3; cbn [is_running] in L3; injection L3 as <- <- <-; auto. }
  destruct X as [X [<- ->]]. injection X as <-. subst m5.
  exists m2, sc2, m4, sc3, more, header, user, bare, (s_trace s1), evs, (EvAction PScramCachedPassword (mk_cached ck sk) c :: taken),
    salt, n, ck, sk. cbv zeta in *. rewrite G0 in *.
  split; [reflexivity|]. split; [reflexivity|]. split; [rewrite app_nil_r; congruence|].
  split; [|split; [exact K|exact M4]].
  unfold new_events in N12, N3. rewrite N3, N12, <- app_assoc. reflexivity.
Qed.

Lemma loop_panics e s data script more out s' :
  crypto_ok e -> Spec_Scram.live (s_mech s) -> ~ is_scram (s_mech s) ->
  doc_loop e s data script more <> (DocPanicked, out, s').
Proof.
  intros C. revert s data script out. induction more as [|[d sc] more IH]; intros s data script out V N;
    cbn [doc_loop]; destruct (step e s data script) as [[[st|y|] o] s1] eqn:E; try discriminate.
  1: destruct (is_running st); discriminate.
  2: destruct st; [|discriminate]; cbn [is_running]; destruct (doc_loop e s1 d sc more) as [[r2 o2] s2] eqn:L;
     intros [= -> <- <-]; refine (IH _ _ _ _ (stays_live _ _ _ _ _ _ E) _ L);
     pose proof (impl_kept _ _ _ _ _ _ _ E) as K; intros X; apply N; destruct (s_mech s), (s_mech s1); cbn in *; tauto.
  all: exfalso; destruct (only_stunted_panics _ _ _ _ _ _ C V E) as [[i [_ S]]|(a & st & K & _)];
    [destruct (s_mech s); cbn in *; tauto|rewrite K in N; exact (N I)].
Qed.

Theorem auth_panics e reg cb prefer offered initial script more out s :
  crypto_ok e -> (forall c, ~ In (DCustom c) reg) ->
  sasl_authenticate e reg cb prefer offered initial script more = Some (DocPanicked, out, s) ->
  exists i a plus, client_start reg cb prefer offered = Ok (i, DScram a plus).
Proof.
  intros C NC H. destruct s as [s|].
  - destruct (started _ _ _ _ _ _ _ _ _ _ _ H) as (s0 & m & B & _ & _ & C' & L).
    assert (K : (exists a plus, m = DScram a plus) \/ (Spec_Scram.live (s_mech s0) /\ ~ is_scram (s_mech s0))).
    { unfold begun in B. destruct s0 as [mm t g v]. cbn [s_mech] in *. inversion B; subst; cbn; eauto. }
    destruct K as [(a & plus & ->)|[V N]]; [eauto|]. destruct (loop_panics _ _ _ _ _ _ _ C V N L).
  - unfold sasl_authenticate in H. destruct (client_start reg cb prefer offered) as [[[y|c] m]|y|] eqn:E; try discriminate.
    + destruct (doc_loop _ _ _ _ _) as [[? ?] ?]. discriminate.
    + destruct (start_panic _ _ _ _ E) as (c & I & _). destruct (NC _ I).
Qed.
