(** Lemmas for C79. *)
From Coq Require Import Lia NArith.
From Verif Require Import Bytes BytesFacts Types World CallbackSpec WorldFacts MonadFacts Gssapi Session
  Spec_Simple Spec_Gssapi Spec_GssPair Proof_Gssapi Proof_ScramRun.
Open Scope m_scope.

(** * Running the steps *)

Definition start (s : session) : world := mk_world [] [] (s_trace s) (s_rng s) (s_val s).

Lemma client_ran e s l input st l' out :
  s_mech s = XGssapiC l -> succeeds (gss_client_step e input) l (start s) st l' out 0 ->
  exists s', step e s input [] = (Ok st, out, s') /\ s_mech s' = XGssapiC l'.
Proof.
  intros Em [w' [evs [E [_ [O _]]]]]. cbn in O.
  exists (mk_session (XGssapiC l') (w_trace w') (w_rng w') (w_val w')). split; [|reflexivity].
  unfold step, run. rewrite Em.
  change (mech_step e input (XGssapiC l)) with (on XGssapiC l (gss_client_step e input) (XGssapiC l)).
  unfold on. fold (start s). rewrite E, O. reflexivity.
Qed.
Lemma server_ran e s l input st l' out :
  s_mech s = XGssapiS l -> succeeds (gss_server_step e input) l (start s) st l' out 0 ->
  exists s', step e s input [] = (Ok st, out, s') /\ s_mech s' = XGssapiS l'.
Proof.
  intros Em [w' [evs [E [_ [O _]]]]]. cbn in O.
  exists (mk_session (XGssapiS l') (w_trace w') (w_rng w') (w_val w')). split; [|reflexivity].
  unfold step, run. rewrite Em.
  change (mech_step e input (XGssapiS l)) with (on XGssapiS l (gss_server_step e input) (XGssapiS l)).
  unfold on. fold (start s). rewrite E, O. reflexivity.
Qed.

Lemma succeeds_write {L} data (l : L) w : w_script w = [] -> succeeds (write_all data) l w tt l data 0.
Proof.
  intros Hs. exists (add_out data w), []. split; [apply write_all_full; exact Hs|].
  unfold did. cbn. rewrite app_nil_r. repeat split; auto. apply script_left_refl.
Qed.
Lemma succeeds_try {L A} (o : option A) (l : L) w a : o = Some a -> succeeds (gss_try o) l w a l [] 0.
Proof. intros ->. apply succeeds_pure. reflexivity. Qed.
Lemma script_kept {evs out n w w'} : did evs out n w w' -> w_script w = [] -> w_script w' = [].
Proof. apply did_script. Qed.

(** One step of a sequence. *)
Ltac next v l out := refine (succeeds_bind _ _ _ _ v l out 0 _ _ _ 0 _ _ _ _ eq_refl eq_refl).

Lemma all_set : all_layers = sl_default. Proof. reflexivity. Qed.

Lemma wants_maybe {L} e c set (f : seclayer -> M L seclayer) l w :
  wants e set -> (forall w, provides e PGssSecurityLayer set -> f set l w = (Ok set, l, w)) ->
  exists o, unwrap_layer o = set /\ succeeds (maybe_need_with e PGssSecurityLayer c f) l w o l [] 0.
Proof.
  intros [Hp|[Hw ->]] Hf.
  - exists (Some set). split; [reflexivity|]. apply (maybe_some e PGssSecurityLayer c f set); auto.
  - exists None. split; [reflexivity|]. apply maybe_none. exact Hw.
Qed.

Lemma check_passes {L} e c set flags (l : L) w :
  e_gss_flags e c = Some flags -> strong_enough flags set ->
  gss_check_acceptable e c set l w = (Ok set, l, w).
Proof.
  intros Ef Hs. unfold gss_check_acceptable, bind. rewrite Ef. cbn [gss_try]. unfold ret at 1.
  unfold strong_enough in Hs. rewrite !layer_has in Hs. cbn [has] in Hs.
  destruct (sl_is_empty set) eqn:E0; [reflexivity|].
  destruct (has_none set) eqn:E1; [reflexivity|]. cbn [orb].
  destruct (has_integ set && gf_integ flags) eqn:E2; [reflexivity|].
  destruct (gf_integ flags && gf_mutual flags && gf_conf flags) eqn:E3; [reflexivity|].
  exfalso. destruct Hs as [->|[->|[Hs|[[A B]|[A [B C]]]]]].
  - discriminate.
  - discriminate.
  - discriminate.
  - rewrite A, B in E2. discriminate.
  - rewrite A, B, C in E3. discriminate.
Qed.

(** * Establishing the context *)

Theorem establish ec es sc ss service host t1 t2 cset sset fc fs :
  s_mech sc = XGssapiC GcInitial -> s_mech ss = XGssapiS GsInitial ->
  provides ec PGssService service -> provides ec PHostname host ->
  mutual ec es (service ++ lit "@" ++ host) t1 t2 ->
  wants ec cset -> wants es sset ->
  e_gss_flags ec (client_two (service ++ lit "@" ++ host) t2) = Some fc -> strong_enough fc cset ->
  e_gss_flags es (server_one t1) = Some fs ->
  sl_is_empty (gss_mask fs sset) = false ->
  exists sc1 ss1 sc2,
    step ec sc None [] = (Ok Running, t1, sc1) /\
    step es ss (Some t1) [] = (Ok Running, t2, ss1) /\
    step ec sc1 (Some t2) [] = (Ok Running, [], sc2) /\
    s_mech sc2 = XGssapiC (GcLast (client_two (service ++ lit "@" ++ host) t2) cset) /\
    s_mech ss1 = XGssapiS (GsInstalled (server_one t1) (gss_mask fs sset)).
Proof.
  intros Ec Es Ps Ph [Nm [Cc [Cs [Ht1 [S1 [I1 [S2 [I2 [S3 I3]]]]]]]]] Wc Ws Ef Hstrong Efs Hne.
  set (name := service ++ lit "@" ++ host) in *.
  destruct (client_ran ec sc GcInitial None Running (GcPending [GInit name; GStep None]) t1 Ec)
    as [sc1 [H1 M1]].
  { unfold gss_client_step. next GcInitial GcInitial (@nil ascii).
    { apply succeeds_pure. reflexivity. }
    intros w1 [evs1 D1]. next tt GcErrored (@nil ascii).
    { apply succeeds_pure. reflexivity. }
    intros w2 [evs2 D2]. cbv beta iota. next service GcErrored (@nil ascii).
    { apply need_some with (v := service); [exact Ps|reflexivity]. }
    intros w3 [evs3 D3]. cbv beta.
    next (tt, name) GcErrored (@nil ascii).
    { destruct (need_some ec PHostname empty_provider
        (fun hostname : bytes => t <- getl ;; setl (t ++ hostname)) host (service ++ lit "@") w3 tt name Ph)
        as [w' [evs [E D]]].
      { intros w. unfold name. unfold bind, getl, setl. rewrite <- app_assoc. reflexivity. }
      exists w', evs. split; [|exact D]. unfold locally. rewrite E. reflexivity. }
    intros w4 [evs4 D4]. cbv beta iota. next tt GcErrored (@nil ascii).
    { apply succeeds_pure. rewrite Nm, Cc. reflexivity. }
    intros w5 [evs5 D5]. cbv beta. unfold gss_client_pending.
    next (Some t1) GcErrored (@nil ascii).
    { apply succeeds_try. exact S1. }
    intros w6 [evs6 D6]. cbv beta zeta iota.
    refine (succeeds_bind _ _ _ _ tt GcErrored t1 0 _ _ [] 0 _ _ _ _ (eq_sym (app_nil_r _)) eq_refl).
    { destruct t1 as [|b t1]; [contradiction|]. apply succeeds_write.
      do 6 (eapply did_script; [eassumption|]). reflexivity. }
    intros w7 [evs7 D7]. cbv beta. cbn [app]. rewrite I1. cbn [negb].
    next tt (GcPending [GInit name; GStep None]) (@nil ascii); [apply succeeds_pure; reflexivity|].
    intros w8 _. apply succeeds_pure. reflexivity. }
  destruct (server_ran es ss GsInitial (Some t1) Running (GsInstalled (server_one t1) (gss_mask fs sset)) t2 Es)
    as [ss1 [H2 M2]].
  { unfold gss_server_step. next GsInitial GsInitial (@nil ascii).
    { apply succeeds_pure. reflexivity. }
    intros w1 [evs1 D1]. next tt GsErrored (@nil ascii).
    { apply succeeds_pure. reflexivity. }
    intros w2 [evs2 D2]. cbv beta iota. rewrite Cs. unfold gss_server_pending.
    next (Some t2) GsErrored (@nil ascii).
    { apply succeeds_try. exact S2. }
    intros w3 [evs3 D3]. cbv beta zeta iota. cbn [app]. unfold server_one in *. rewrite I2.
    destruct (wants_maybe es empty_provider sset (fun a : seclayer => ret a) GsErrored w3 Ws)
      as [o [Eo Ho]]; [reflexivity|].
    next o GsErrored (@nil ascii); [exact Ho|].
    intros w4 [evs4 D4]. cbv beta. next fs GsErrored (@nil ascii).
    { apply succeeds_try. exact Efs. }
    intros w5 [evs5 D5]. cbv beta zeta. rewrite Eo, Hne.
    next tt (GsInstalled [GAccept; GStep (Some t1)] (gss_mask fs sset)) (@nil ascii).
    { apply succeeds_pure. reflexivity. }
    intros w6 [evs6 D6]. cbv beta iota.
    refine (succeeds_bind _ _ _ _ tt _ t2 0 _ _ [] 0 _ _ _ _ (eq_sym (app_nil_r _)) eq_refl).
    { apply succeeds_write. do 6 (eapply did_script; [eassumption|]). reflexivity. }
    intros w7 _. apply succeeds_pure. reflexivity. }
  destruct (client_ran ec sc1 _ (Some t2) Running (GcLast (client_two name t2) cset) [] M1)
    as [sc2 [H3 M3]].
  { unfold gss_client_step. next (GcPending [GInit name; GStep None]) (GcPending [GInit name; GStep None]) (@nil ascii).
    { apply succeeds_pure. reflexivity. }
    intros w1 [evs1 D1]. next tt GcErrored (@nil ascii).
    { apply succeeds_pure. reflexivity. }
    intros w2 [evs2 D2]. cbv beta iota. unfold gss_client_pending.
    assert (Htok : exists tok, e_gss_step ec [GInit name; GStep None] (Some t2) = Some tok /\
      (tok = None \/ tok = Some [])).
    { destruct S3 as [S3|S3]; rewrite S3; eauto. }
    destruct Htok as [tok [Etok Htok]].
    next tok GcErrored (@nil ascii).
    { apply succeeds_try. exact Etok. }
    intros w3 [evs3 D3]. cbv beta zeta iota. next tt GcErrored (@nil ascii).
    { destruct Htok as [->| ->]; apply succeeds_pure; reflexivity. }
    intros w4 [evs4 D4]. cbv beta. cbn [app]. unfold client_two in *. rewrite I3. cbn [negb].
    destruct (wants_maybe ec empty_provider cset
      (gss_check_acceptable ec [GInit name; GStep None; GStep (Some t2)]) GcErrored w4 Wc) as [o [Eo Ho]].
    { intros w _. apply (check_passes _ _ _ fc); assumption. }
    next o GcErrored (@nil ascii); [exact Ho|].
    intros w5 [evs5 D5]. cbv beta. rewrite Eo.
    next tt (GcLast [GInit name; GStep None; GStep (Some t2)] cset) (@nil ascii).
    { apply succeeds_pure. reflexivity. }
    intros w6 _. apply succeeds_pure. reflexivity. }
  exists sc1, ss1, sc2. auto.
Qed.

(** * Negotiating the layer *)

Lemma mask_known fs set : known_layers set -> from_bits (gss_mask fs set) = Some (gss_mask fs set).
Proof.
  intros K. apply known_from_bits in K. revert K. destruct fs as [m c i], set as [b0 b1 b2 b3 b4 b5 b6 b7].
  destruct b3, b4, b5, b6, b7; cbn; try discriminate. destruct m, c, i; reflexivity.
Qed.

Lemma mask_empty fs cset sset l : known_layers sset -> common cset sset fs l ->
  sl_is_empty (gss_mask fs sset) = false.
Proof.
  intros K [_ [A C]]. apply layer_has in A.
  assert (H : has l (gss_mask fs sset) = true) by (apply has_mask; auto).
  destruct (sl_is_empty (gss_mask fs sset)) eqn:E; [|reflexivity].
  unfold sl_is_empty in E. apply beq_eq in E. rewrite E in H. destruct l; discriminate.
Qed.

(** The client's choice is the strongest common layer. *)
Definition choice_of (l : layer) : bytes * option bool :=
  match l with
  | LayerNone => ([chr 1; zero; zero; zero], None)
  | LayerIntegrity => ([chr 2; ff; ff; ff], Some false)
  | LayerConfidentiality => ([chr 4; ff; ff; ff], Some true)
  end.

Lemma common_has cset sset fs l :
  common cset sset fs l <-> has l (sl_and (gss_mask fs sset) cset) = true.
Proof.
  unfold common. rewrite has_and, Bool.andb_true_iff, has_mask, !layer_has. intuition.
Qed.

Lemma choose_agreed cset sset fs :
  match gss_choose (sl_and (gss_mask fs sset) cset) with
  | Some x => exists l, agreed cset sset fs l /\ x = choice_of l
  | None => forall l, ~ common cset sset fs l
  end.
Proof.
  unfold gss_choose.
  set (sh := sl_and (gss_mask fs sset) cset).
  assert (K : forall l, common cset sset fs l <-> has l sh = true) by (intros; apply common_has).
  destruct (has_conf sh) eqn:Ec; [|destruct (has_integ sh) eqn:Ei; [|destruct (has_none sh) eqn:En]].
  - exists LayerConfidentiality. split; [|reflexivity]. split; [apply K; exact Ec|].
    intros l' _. destruct l'; discriminate.
  - exists LayerIntegrity. split; [|reflexivity]. split; [apply K; exact Ei|].
    intros l' Hl. apply K in Hl. destruct l'; cbn in Hl; [discriminate..|congruence].
  - exists LayerNone. split; [|reflexivity]. split; [apply K; exact En|].
    intros l' Hl. apply K in Hl. destruct l'; cbn in Hl; [discriminate|congruence..].
  - intros l Hl. apply K in Hl. destruct l; cbn in Hl; congruence.
Qed.

Lemma agreed_unique cset sset fs l l' : agreed cset sset fs l -> agreed cset sset fs l' -> l = l'.
Proof.
  intros [A B] [A' B']. pose proof (B _ A') as H. pose proof (B' _ A) as H'. unfold weaker in *.
  destruct l, l'; cbn in *; try reflexivity; lia.
Qed.

Lemma final_accepts e s c offer token l :
  s_mech s = XGssapiS (GsFinal c offer) -> has l offer = true ->
  e_gss_unwrap e c token = Some (fst (choice_of l)) ->
  exists s', step e s (Some token) [] = (Ok (Finished false), [], s') /\
    s_mech s' = XGssapiS (GsDone (match snd (choice_of l) with
                                  | Some b => Some (c ++ [GUnwrap token], b) | None => None end)).
Proof.
  intros Em Hl Eu. apply (server_ran e s (GsFinal c offer)); [exact Em|].
  unfold gss_server_step. next (GsFinal c offer) (GsFinal c offer) (@nil ascii).
  { apply succeeds_pure. reflexivity. }
  intros w1 [evs1 D1]. next tt GsErrored (@nil ascii).
  { apply succeeds_pure. reflexivity. }
  intros w2 [evs2 D2]. cbv beta iota. next (fst (choice_of l)) GsErrored (@nil ascii).
  { apply succeeds_try. exact Eu. }
  intros w3 [evs3 D3]. cbv beta zeta.
  assert (Hi : forall b, has l b = true -> sl_intersects b offer = true).
  { intros b Hb. unfold sl_intersects. rewrite (sl_and_share _ _ l Hb Hl). reflexivity. }
  destruct l; cbn [choice_of fst snd].
  - change (from_bits (chr 1)) with (Some (chr 1)). cbv beta iota.
    rewrite (Hi (chr 1) eq_refl). cbn [negb].
    refine (succeeds_bind _ _ _ _ tt _ [] 0 _ _ [] 0 _ _ _ _ eq_refl eq_refl);
      [apply succeeds_pure; reflexivity|]. intros. apply succeeds_pure. reflexivity.
  - change (from_bits (chr 2)) with (Some (chr 2)). cbv beta iota.
    rewrite (Hi (chr 2) eq_refl). cbn [negb].
    refine (succeeds_bind _ _ _ _ tt _ [] 0 _ _ [] 0 _ _ _ _ eq_refl eq_refl);
      [apply succeeds_pure; reflexivity|]. intros. apply succeeds_pure. reflexivity.
  - change (from_bits (chr 4)) with (Some (chr 4)). cbv beta iota.
    rewrite (Hi (chr 4) eq_refl). cbn [negb].
    refine (succeeds_bind _ _ _ _ tt _ [] 0 _ _ [] 0 _ _ _ _ eq_refl eq_refl);
      [apply succeeds_pure; reflexivity|]. intros. apply succeeds_pure. reflexivity.
Qed.

(** The four octets a server offers. *)
Definition offer_msg (offer : byte) : bytes :=
  if has_conf offer || has_integ offer then [offer; ff; ff; ff] else [offer; zero; zero; zero].

(** What follows when the offer has been wrapped for the client. *)
Theorem answered ec es sc ss1 c s cset sset fs R w1 :
  linked ec es R ->
  e_gss_unwrap ec c w1 = Some (offer_msg (gss_mask fs sset)) ->
  R (c ++ [GUnwrap w1]) (s ++ [GWrap false (offer_msg (gss_mask fs sset))]) ->
  s_mech sc = XGssapiC (GcLast c cset) ->
  s_mech ss1 = XGssapiS (GsFinal (s ++ [GWrap false (offer_msg (gss_mask fs sset))]) (gss_mask fs sset)) ->
  known_layers sset ->
    match gss_choose (sl_and (gss_mask fs sset) cset) with
    | Some (reply, wrap) => exists l w2 sc1 ss2 c' s',
        agreed cset sset fs l /\ R c' s' /\
        step ec sc (Some w1) [] = (Ok (Finished true), w2, sc1) /\
        step es ss1 (Some w2) [] = (Ok (Finished false), [], ss2) /\
        s_mech sc1 = XGssapiC (GcCompleted (match snd (choice_of l) with
                                            | Some b => Some (c', b) | None => None end)) /\
        s_mech ss2 = XGssapiS (GsDone (match snd (choice_of l) with
                                       | Some b => Some (s', b) | None => None end))
    | None => (forall l, ~ common cset sset fs l) /\ exists sc1,
        step ec sc (Some w1) [] = (Err (EMech MGssBadContext), [], sc1)
    end.
Proof.
  intros Lk U1 R1 Ec M1 Kn. set (offer := gss_mask fs sset) in *. set (msg := offer_msg offer) in *.
  assert (Em : exists b1 b2 b3, msg = [offer; b1; b2; b3]).
  { unfold msg, offer_msg. destruct (_ || _); do 3 eexists; reflexivity. }
  pose proof (choose_agreed cset sset fs) as Hch. fold offer in Hch.
  pose proof (mask_known fs sset Kn) as Hbits. fold offer in Hbits.
  destruct Em as [b1 [b2 [b3 Em]]].
  destruct (gss_choose (sl_and offer cset)) as [[reply wrap]|] eqn:Ech.
  - destruct Hch as [l [Ag El]].
    destruct (proj1 (Lk _ _ false reply R1)) as [w2 [W2 [U2 R2]]].
    destruct (client_ran ec sc (GcLast c cset) (Some w1) (Finished true)
      (GcCompleted (match wrap with Some b => Some ((c ++ [GUnwrap w1]) ++ [GWrap false reply], b) | None => None end)) w2 Ec)
      as [sc1 [H2 M2]].
    { unfold gss_client_step. next (GcLast c cset) (GcLast c cset) (@nil ascii).
      { apply succeeds_pure. reflexivity. }
      intros w3 [evs3 D3]. next tt GcErrored (@nil ascii).
      { apply succeeds_pure. reflexivity. }
      intros w4 [evs4 D4]. cbv beta iota.
      next msg GcErrored (@nil ascii).
      { apply succeeds_try. exact U1. }
      intros w5 [evs5 D5]. cbv beta zeta. rewrite Em. cbv beta iota. rewrite Hbits. cbv beta iota.
      rewrite Ech. cbv beta iota.
      next w2 GcErrored (@nil ascii).
      { apply succeeds_try. exact W2. }
      intros w6 [evs6 D6]. cbv beta zeta.
      refine (succeeds_bind _ _ _ _ tt _ w2 0 _ _ [] 0 _ _ _ _ (eq_sym (app_nil_r _)) eq_refl).
      { apply succeeds_write. do 4 (eapply did_script; [eassumption|]). reflexivity. }
      intros w7 [evs7 D7]. cbv beta.
      refine (succeeds_bind _ _ _ _ tt _ [] 0 _ _ [] 0 _ _ _ _ eq_refl eq_refl);
        [apply succeeds_pure; reflexivity|]. intros. apply succeeds_pure. reflexivity. }
    assert (Hl : has l offer = true).
    { destruct Ag as [Hc _]. apply common_has in Hc. rewrite has_and in Hc.
      apply andb_prop in Hc. apply Hc. }
    assert (Er : reply = fst (choice_of l)) by (rewrite <- El; reflexivity).
    assert (Ew : wrap = snd (choice_of l)) by (rewrite <- El; reflexivity).
    destruct (final_accepts es ss1 _ offer w2 l M1 Hl) as [ss2 [H3 M3]].
    { rewrite U2, Er. reflexivity. }
    exists l, w2, sc1, ss2, ((c ++ [GUnwrap w1]) ++ [GWrap false reply]),
      ((s ++ [GWrap false msg]) ++ [GUnwrap w2]).
    split; [exact Ag|]. split; [exact R2|]. split; [exact H2|]. split; [exact H3|].
    split; [rewrite M2, Ew; reflexivity|exact M3].
  - split; [exact Hch|]. unfold step, run. rewrite Ec.
    change (mech_step ec (Some w1) (XGssapiC (GcLast c cset)))
      with (on XGssapiC (GcLast c cset) (gss_client_step ec (Some w1)) (XGssapiC (GcLast c cset))).
    unfold on, gss_client_step, bind, getl, setl. rewrite U1. cbn [gss_try]. unfold ret at 1.
    rewrite Em. cbv beta iota zeta. rewrite Hbits, Ech. eexists. reflexivity.
Qed.

Theorem negotiate ec es sc ss c s cset sset fs R :
  linked ec es R -> R c s ->
  s_mech sc = XGssapiC (GcLast c cset) ->
  s_mech ss = XGssapiS (GsInstalled s (gss_mask fs sset)) ->
  known_layers sset ->
  exists w1 ss1,
    step es ss (Some []) [] = (Ok Running, w1, ss1) /\
    match gss_choose (sl_and (gss_mask fs sset) cset) with
    | Some (reply, wrap) => exists l w2 sc1 ss2 c' s',
        agreed cset sset fs l /\ R c' s' /\
        step ec sc (Some w1) [] = (Ok (Finished true), w2, sc1) /\
        step es ss1 (Some w2) [] = (Ok (Finished false), [], ss2) /\
        s_mech sc1 = XGssapiC (GcCompleted (match snd (choice_of l) with
                                            | Some b => Some (c', b) | None => None end)) /\
        s_mech ss2 = XGssapiS (GsDone (match snd (choice_of l) with
                                       | Some b => Some (s', b) | None => None end))
    | None => (forall l, ~ common cset sset fs l) /\ exists sc1,
        step ec sc (Some w1) [] = (Err (EMech MGssBadContext), [], sc1)
    end.
Proof.
  intros Lk HR Ec Es Kn. set (offer := gss_mask fs sset) in *.
  set (msg := offer_msg offer).
  destruct (proj2 (Lk c s false msg HR)) as [w1 [W1 [U1 R1]]].
  destruct (server_ran es ss (GsInstalled s offer) (Some []) Running (GsFinal (s ++ [GWrap false msg]) offer) w1 Es)
    as [ss1 [H1 M1]].
  { unfold gss_server_step. next (GsInstalled s offer) (GsInstalled s offer) (@nil ascii).
    { apply succeeds_pure. reflexivity. }
    intros w2 [evs2 D2]. next tt GsErrored (@nil ascii).
    { apply succeeds_pure. reflexivity. }
    intros w3 [evs3 D3]. cbv beta iota. unfold gss_server_installed. fold (offer_msg offer). fold msg. cbv zeta.
    next w1 GsErrored (@nil ascii).
    { apply succeeds_try. exact W1. }
    intros w4 [evs4 D4]. cbv beta.
    refine (succeeds_bind _ _ _ _ tt _ w1 0 _ _ [] 0 _ _ _ _ (eq_sym (app_nil_r _)) eq_refl).
    { apply succeeds_write. do 3 (eapply did_script; [eassumption|]). reflexivity. }
    intros w5 [evs5 D5].
    next tt (GsFinal (s ++ [GWrap false msg]) offer) (@nil ascii); [apply succeeds_pure; reflexivity|].
    intros. apply succeeds_pure. reflexivity. }
  exists w1, ss1. split; [exact H1|].
  exact (answered ec es sc ss1 c s cset sset fs R w1 Lk U1 R1 Ec M1 Kn).
Qed.

(** * Protected data *)

Theorem data_arrives ec es R : linked ec es R ->
  forall sc ss, paired R sc ss -> forall ds,
  exists sc' ss', traffic ec es sc ss ds ds sc' ss' /\ paired R sc' ss'.
Proof.
  intros Lk sc ss Hp ds. revert sc ss Hp. induction ds as [|[dir d] ds IH]; intros sc ss Hp.
  - exists sc, ss. split; [constructor|exact Hp].
  - destruct Hp as [c [s [conf [HR [Mc Ms]]]]].
    assert (Pc : protects (s_mech sc) c conf) by (left; exact Mc).
    assert (Ps : protects (s_mech ss) s conf) by (right; exact Ms).
    destruct (Lk c s conf d HR) as [[t [W [U R1]]] [t' [W' [U' R1']]]].
    destruct dir.
    + destruct (encode_sends ec sc c conf d [] Pc) as [ma [Pa Ha]]. rewrite W in Ha.
      destruct Ha as [[sc1 [E1 M1]]|[K _]]; [|contradiction].
      destruct (decode_sends es ss s conf t [] Ps) as [mb [Pb Hb]]. rewrite U in Hb.
      destruct Hb as [[ss1 [E2 M2]]|[K _]]; [|contradiction].
      assert (Hn : paired R sc1 ss1).
      { exists (c ++ [GWrap conf d]), (s ++ [GUnwrap t]), conf. split; [exact R1|]. split.
        - unfold session_encode, run in E1. rewrite Mc in E1.
          change (mech_encode ec d (XGssapiC (GcCompleted (Some (c, conf)))))
            with (on XGssapiC (GcCompleted (Some (c, conf))) (gss_client_encode ec d)
                     (XGssapiC (GcCompleted (Some (c, conf))))) in E1.
          unfold on in E1. destruct (gss_client_encode ec d _ _) as [[r l'] w'].
          injection E1 as _ _ <-. cbn in M1 |- *. destruct Pa as [->| ->]; [exact M1|discriminate].
        - unfold session_decode, run in E2. rewrite Ms in E2.
          change (mech_decode es t (XGssapiS (GsDone (Some (s, conf)))))
            with (on XGssapiS (GsDone (Some (s, conf))) (gss_server_decode es t)
                     (XGssapiS (GsDone (Some (s, conf))))) in E2.
          unfold on in E2. destruct (gss_server_decode es t _ _) as [[r l'] w'].
          injection E2 as _ _ <-. cbn in M2 |- *. destruct Pb as [->| ->]; [discriminate|exact M2]. }
      destruct (IH _ _ Hn) as [sc2 [ss2 [T P]]]. exists sc2, ss2. split; [|exact P].
      exact (tr_client _ _ _ _ _ _ _ _ _ _ _ _ _ _ _ E1 E2 T).
    + destruct (encode_sends es ss s conf d [] Ps) as [ma [Pa Ha]]. rewrite W' in Ha.
      destruct Ha as [[ss1 [E1 M1]]|[K _]]; [|contradiction].
      destruct (decode_sends ec sc c conf t' [] Pc) as [mb [Pb Hb]]. rewrite U' in Hb.
      destruct Hb as [[sc1 [E2 M2]]|[K _]]; [|contradiction].
      assert (Hn : paired R sc1 ss1).
      { exists (c ++ [GUnwrap t']), (s ++ [GWrap conf d]), conf. split; [exact R1'|]. split.
        - unfold session_decode, run in E2. rewrite Mc in E2.
          change (mech_decode ec t' (XGssapiC (GcCompleted (Some (c, conf)))))
            with (on XGssapiC (GcCompleted (Some (c, conf))) (gss_client_decode ec t')
                     (XGssapiC (GcCompleted (Some (c, conf))))) in E2.
          unfold on in E2. destruct (gss_client_decode ec t' _ _) as [[r l'] w'].
          injection E2 as _ _ <-. cbn in M2 |- *. destruct Pb as [->| ->]; [exact M2|discriminate].
        - unfold session_encode, run in E1. rewrite Ms in E1.
          change (mech_encode es d (XGssapiS (GsDone (Some (s, conf)))))
            with (on XGssapiS (GsDone (Some (s, conf))) (gss_server_encode es d)
                     (XGssapiS (GsDone (Some (s, conf))))) in E1.
          unfold on in E1. destruct (gss_server_encode es d _ _) as [[r l'] w'].
          injection E1 as _ _ <-. cbn in M1 |- *. destruct Pa as [->| ->]; [discriminate|exact M1]. }
      destruct (IH _ _ Hn) as [sc2 [ss2 [T P]]]. exists sc2, ss2. split; [|exact P].
      exact (tr_server _ _ _ _ _ _ _ _ _ _ _ _ _ _ _ E1 E2 T).
Qed.

(** * The whole exchange *)

Theorem gss_exchange ec es sc ss service host t1 t2 cset sset fc fs R l :
  s_mech sc = XGssapiC GcInitial -> s_mech ss = XGssapiS GsInitial ->
  provides ec PGssService service -> provides ec PHostname host ->
  mutual ec es (service ++ lit "@" ++ host) t1 t2 ->
  linked ec es R -> R (client_two (service ++ lit "@" ++ host) t2) (server_one t1) ->
  wants ec cset -> wants es sset -> known_layers sset ->
  e_gss_flags ec (client_two (service ++ lit "@" ++ host) t2) = Some fc -> strong_enough fc cset ->
  e_gss_flags es (server_one t1) = Some fs ->
  agreed cset sset fs l ->
  exists sc1 ss1 sc2 w1 ss2 w2 sc3 ss3,
    step ec sc None [] = (Ok Running, t1, sc1) /\
    step es ss (Some t1) [] = (Ok Running, t2, ss1) /\
    step ec sc1 (Some t2) [] = (Ok Running, [], sc2) /\
    step es ss1 (Some []) [] = (Ok Running, w1, ss2) /\
    step ec sc2 (Some w1) [] = (Ok (Finished true), w2, sc3) /\
    step es ss2 (Some w2) [] = (Ok (Finished false), [], ss3) /\
    uses_layer (s_mech sc3) l /\ uses_layer (s_mech ss3) l /\
    (l <> LayerNone -> paired R sc3 ss3).
Proof.
  intros Ec Es Ps Ph Mu Lk HR Wc Ws Kn Ef St Efs Ag.
  assert (Hne : sl_is_empty (gss_mask fs sset) = false).
  { destruct Ag as [Hc _]. exact (mask_empty _ _ _ _ Kn Hc). }
  destruct (establish ec es sc ss service host t1 t2 cset sset fc fs Ec Es Ps Ph Mu Wc Ws Ef St Efs Hne)
    as [sc1 [ss1 [sc2 [H1 [H2 [H3 [M2 N1]]]]]]].
  destruct (negotiate ec es sc2 ss1 _ _ cset sset fs R Lk HR M2 N1 Kn) as [w1 [ss2 [H4 H]]].
  destruct (gss_choose (sl_and (gss_mask fs sset) cset)) as [[reply wrap]|].
  - destruct H as [l' [w2 [sc3 [ss3 [c' [s' [Ag' [R' [H5 [H6 [M3 N3]]]]]]]]]]].
    pose proof (agreed_unique _ _ _ _ _ Ag Ag') as <-.
    exists sc1, ss1, sc2, w1, ss2, w2, sc3, ss3.
    do 6 (split; [assumption|]). rewrite M3, N3.
    destruct l; cbn [choice_of snd]; (split; [constructor|]); (split; [constructor|]); intros Hl;
      [contradiction|..]; exists c', s'; eexists; (split; [exact R'|]);
      (split; [exact M3|exact N3]).
  - exfalso. destruct H as [Hno _]. destruct Ag as [Hc _]. exact (Hno l Hc).
Qed.

(** Without a common layer no exchange completes. *)
Theorem gss_disagree ec es sc ss service host t1 t2 cset sset fc fs R :
  s_mech sc = XGssapiC GcInitial -> s_mech ss = XGssapiS GsInitial ->
  provides ec PGssService service -> provides ec PHostname host ->
  mutual ec es (service ++ lit "@" ++ host) t1 t2 ->
  linked ec es R -> R (client_two (service ++ lit "@" ++ host) t2) (server_one t1) ->
  wants ec cset -> wants es sset -> known_layers sset ->
  e_gss_flags ec (client_two (service ++ lit "@" ++ host) t2) = Some fc -> strong_enough fc cset ->
  e_gss_flags es (server_one t1) = Some fs ->
  (exists l, layer_in l sset /\ capable fs l) -> (forall l, ~ common cset sset fs l) ->
  exists sc1 ss1 sc2 w1 ss2 sc3,
    step ec sc None [] = (Ok Running, t1, sc1) /\
    step es ss (Some t1) [] = (Ok Running, t2, ss1) /\
    step ec sc1 (Some t2) [] = (Ok Running, [], sc2) /\
    step es ss1 (Some []) [] = (Ok Running, w1, ss2) /\
    step ec sc2 (Some w1) [] = (Err (EMech MGssBadContext), [], sc3).
Proof.
  intros Ec Es Ps Ph Mu Lk HR Wc Ws Kn Ef St Efs [l [Hl Hcap]] Hno.
  assert (Hne : sl_is_empty (gss_mask fs sset) = false).
  { apply (mask_empty fs sset sset l Kn). repeat split; assumption. }
  destruct (establish ec es sc ss service host t1 t2 cset sset fc fs Ec Es Ps Ph Mu Wc Ws Ef St Efs Hne)
    as [sc1 [ss1 [sc2 [H1 [H2 [H3 [M2 N1]]]]]]].
  destruct (negotiate ec es sc2 ss1 _ _ cset sset fs R Lk HR M2 N1 Kn) as [w1 [ss2 [H4 H]]].
  pose proof (choose_agreed cset sset fs) as Hch.
  destruct (gss_choose (sl_and (gss_mask fs sset) cset)) as [[reply wrap]|].
  - exfalso. destruct Hch as [l' [[Hc _] _]]. exact (Hno l' Hc).
  - destruct H as [_ [sc3 H5]]. exists sc1, ss1, sc2, w1, ss2, sc3. auto 10.
Qed.
