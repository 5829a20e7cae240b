(** Proofs for C113. *)
From Verif Require Import Bytes BytesFacts Utf8 Base64 Num Types World CallbackSpec WorldFacts MonadFacts Simple OAuth ScramParser Scram Gssapi Session Frame
  Spec_Flow Spec_Simple Spec_OAuth Spec_ScramText Spec_Scram Spec_Derive Proof_Simple Proof_Wire Proof_ScramText Proof_Scram Proof_ScramRun Proof_ScramMain
  Proof_Agree Proof_Policy Local Proof_Random.
Open Scope m_scope.

(** * A request with a consumer that only computes *)

Definition pure {L G} {q : prop} (g : pval q -> G) : pval q -> M L G := fun v => ret (g v).

Lemma closed_request {L G} q (g g' : pval q -> G) p : forall st (l : L) w, st <> CrOpen ->
  run_satisfy q (pure g') p st l w = run_satisfy q (pure g) p st l w.
Proof.
  induction p as [r|p v k IH|p c k IH|p k IH|p k IH]; intros st l w Hst; cbn [run_satisfy].
  - reflexivity.
  - destruct (castp v) as [v'|]; [|apply IH, Hst].
    destruct st; [congruence| |]; cbn [cr_satisfy]; apply IH; discriminate.
  - destruct (prop_eq_dec p q); [|apply IH, Hst]. destruct c as [x|v]; [apply IH, Hst|].
    destruct (castp v) as [v'|]; [|apply IH, Hst].
    destruct st; [congruence| |]; cbn [cr_satisfy]; apply IH; discriminate.
  - apply IH, Hst.
  - apply IH, Hst.
Qed.

(** The value the consumer is called with, if any. *)
Lemma open_request {L G} q p : forall (l : L) w, exists o : option (pval q),
  (forall g g' : pval q -> G, (forall v, o = Some v -> g' v = g v) ->
     run_satisfy q (pure g') p CrOpen l w = run_satisfy q (pure g) p CrOpen l w) /\
  (forall g : pval q -> G, exists r st evs,
     run_satisfy q (pure g) p CrOpen l w = (Ok r, st, l, add_events evs w) /\
     forall v, o = Some v -> In (EvAnswer q v) evs).
Proof.
  assert (Called : forall (k : cres -> cbprog) v (l : L) w (pre : list event), exists o : option (pval q),
    (forall g g' : pval q -> G, (forall v, o = Some v -> g' v = g v) ->
      match cr_satisfy q (pure g') CrOpen v l (add_events pre w) with
      | (Ok _, st', l', w') => run_satisfy q (pure g') (k (Some ECbEarlyReturn)) st' l' w'
      | (Err e, st', l', w') => run_satisfy q (pure g') (k (Some e)) st' l' w'
      | (Panic, st', l', w') => (Panic, st', l', w')
      end =
      match cr_satisfy q (pure g) CrOpen v l (add_events pre w) with
      | (Ok _, st', l', w') => run_satisfy q (pure g) (k (Some ECbEarlyReturn)) st' l' w'
      | (Err e, st', l', w') => run_satisfy q (pure g) (k (Some e)) st' l' w'
      | (Panic, st', l', w') => (Panic, st', l', w')
      end) /\
    (forall g : pval q -> G, exists r st evs,
      match cr_satisfy q (pure g) CrOpen v l (add_events pre w) with
      | (Ok _, st', l', w') => run_satisfy q (pure g) (k (Some ECbEarlyReturn)) st' l' w'
      | (Err e, st', l', w') => run_satisfy q (pure g) (k (Some e)) st' l' w'
      | (Panic, st', l', w') => (Panic, st', l', w')
      end = (Ok r, st, l, add_events evs w) /\
      forall v, o = Some v -> In (EvAnswer q v) evs)).
  { intros k v l w pre. exists (Some v). split.
    - intros g g' H. unfold cr_satisfy, bind, log, pure, ret. rewrite (H v eq_refl).
      apply (closed_request q g g' _ (CrSatisfied (g v))). discriminate.
    - intros g. unfold cr_satisfy, bind, log. unfold pure at 1, ret.
      destruct (run_satisfy_taken q (pure g) (k (Some ECbEarlyReturn)) (CrSatisfied (g v)) l
        (add_event (EvAnswer q v) (add_events pre w))) as [r [st' [cs [E _]]]]; [discriminate|].
      rewrite E. rewrite add_event_events, !add_events_app. eexists _, _, _. split; [reflexivity|].
      intros v0 H. injection H as <-. rewrite !in_app_iff. cbn [In app]. auto. }
  induction p as [r|p v k IH|p c k IH|p k IH|p k IH]; intros l w; cbn [run_satisfy].
  - exists None. split; [reflexivity|]. intros g. exists r, CrOpen, []. rewrite add_events_nil.
    split; [reflexivity|discriminate].
  - destruct (castp v) as [v'|]; [|apply IH].
    destruct (Called k v' l w []) as [o H]. rewrite add_events_nil in H. exists o. exact H.
  - destruct (prop_eq_dec p q); [|apply IH].
    assert (Later : forall x, exists o : option (pval q),
      (forall g g' : pval q -> G, (forall v, o = Some v -> g' v = g v) ->
        run_satisfy q (pure g') (k x) CrOpen l (add_event (EvClosure p) w)
        = run_satisfy q (pure g) (k x) CrOpen l (add_event (EvClosure p) w)) /\
      (forall g : pval q -> G, exists r st evs,
        run_satisfy q (pure g) (k x) CrOpen l (add_event (EvClosure p) w) = (Ok r, st, l, add_events evs w) /\
        forall v, o = Some v -> In (EvAnswer q v) evs)).
    { intros x. destruct (IH x l (add_event (EvClosure p) w)) as [o [H1 H2]]. exists o. split; [exact H1|].
      intros g. destruct (H2 g) as [r [st [evs [E I]]]]. rewrite add_event_events, add_events_app in E.
      rewrite add_event_events. eexists _, _, _. split; [exact E|].
      intros v H. apply in_or_app. right. apply I, H. }
    destruct c as [x|v]; [apply Later|]. destruct (castp v) as [v'|]; [|apply Later].
    destruct (Called k v' l w [EvClosure p]) as [o H]. rewrite <- add_event_events in H. exists o. exact H.
  - apply IH.
  - apply IH.
Qed.

(** * The client's keys *)

(** What is left of client_keys when neither keys nor a salted password are given. *)
Definition from_password {L} (e : env) (a : alg) (salt : bytes) (n : N) (kdf : kdf_of) : M L (bytes * bytes) :=
  need_with e PPassword (scram_client_provider salt n) (pure (fun p : pval PPassword => derive_keys e a (kdf a p salt n))).
Definition keys_with {L} (e : env) (a : alg) (salt : bytes) (n : N) (last : M L (bytes * bytes)) : M L (bytes * bytes) :=
  let prov := scram_client_provider salt n in
  k1 <- maybe_need_with e PScramCachedPassword prov (fun c : cached =>
    if Nat.eqb (length (ca_client_key c)) (hlen a)
       && Nat.eqb (length (ca_server_key c)) (hlen a)
    then ret (ca_client_key c, ca_server_key c) else panic) ;;
  match k1 with
  | Some k => ret k
  | None =>
      k2 <- maybe_need_with e PSaltedPassword prov (fun p : bytes =>
        match p with
        | [] => fail ECbNoValue
        | _ => ret (derive_keys e a p)
        end) ;;
      match k2 with
      | Some k => ret k
      | None => last
      end
  end.
Lemma client_keys_with {L} e kdf a salt n :
  @client_keys L (set_kdf e kdf) a salt n = keys_with e a salt n (from_password e a salt n kdf).
Proof. reflexivity. Qed.
Lemma client_keys_own {L} e a salt n :
  @client_keys L e a salt n = keys_with e a salt n (from_password e a salt n (e_pbkdf2 e)).
Proof. reflexivity. Qed.

Lemma password_used {L} e a salt n (l : L) w : exists o : option bytes,
  (forall kdf kdf', (forall p, o = Some p -> kdf' a p salt n = kdf a p salt n) ->
    from_password e a salt n kdf' l w = from_password e a salt n kdf l w) /\
  (forall kdf, match from_password e a salt n kdf l w with
    | (_, _, w') => exists evs, w_trace w' = w_trace w ++ evs /\ forall p, o = Some p -> In (EvAnswer PPassword p) evs
    end).
Proof.
  destruct (@open_request L (bytes * bytes) PPassword
    (e_cb e (w_trace w) (e_sd e) (scram_client_provider salt n) (RSatisfy PPassword)) l
    (add_event (EvRequest PPassword (scram_client_provider salt n)) w)) as [o [H1 H2]].
  exists o. split.
  - intros kdf kdf' H. unfold from_password, need_with, bind, maybe_need_with.
    rewrite (H1 (fun p => derive_keys e a (kdf a p salt n)) (fun p => derive_keys e a (kdf' a p salt n))); [reflexivity|].
    intros v Hv. rewrite (H v Hv). reflexivity.
  - intros kdf. unfold from_password, need_with, bind, maybe_need_with.
    destruct (H2 (fun p => derive_keys e a (kdf a p salt n))) as [r [st [evs [E I]]]]. rewrite E.
    assert (T : w_trace (add_events evs (add_event (EvRequest PPassword (scram_client_provider salt n)) w))
      = w_trace w ++ (EvRequest PPassword (scram_client_provider salt n) :: evs)).
    { cbn [add_events add_event w_trace]. rewrite <- app_assoc. reflexivity. }
    assert (I' : forall p, o = Some p -> In (EvAnswer PPassword p) (EvRequest PPassword (scram_client_provider salt n) :: evs)).
    { intros p Hp. right. apply I, Hp. }
    destruct (mask_early r) as [[]|]; destruct st; unfold ret, fail; eexists; split; eassumption.
Qed.

(** Either the last part is not reached, or what happens before it does not depend on it. *)
Lemma keys_with_cases {L} e a salt n (l : L) w :
  (exists r l' evs, forall last, keys_with e a salt n last l w = (r, l', add_events evs w)) \/
  (exists l' evs, forall last, keys_with e a salt n last l w = last l' (add_events evs w)).
Proof.
  unfold keys_with, bind. cbv zeta.
  match goal with |- context [maybe_need_with e PScramCachedPassword ?c ?f l w] =>
    destruct (maybe_need_with e PScramCachedPassword c f l w) as [[r1 l1] w1] eqn:E1 end.
  apply need_shown in E1; [|intros v l0 w0; destruct (_ && _); eexists; reflexivity].
  destruct E1 as [_ [evs1 [-> _]]].
  destruct r1 as [[k|]|x|]; [left; eexists _, _, _; reflexivity| |left; eexists _, _, _; reflexivity..].
  match goal with |- context [maybe_need_with e PSaltedPassword ?c ?f ?l ?w] =>
    destruct (maybe_need_with e PSaltedPassword c f l w) as [[r2 l2] w2] eqn:E2 end.
  apply need_shown in E2; [|intros v l0 w0; destruct v; eexists; reflexivity].
  destruct E2 as [_ [evs2 [-> _]]]. rewrite add_events_app.
  destruct r2 as [[k|]|x|]; [left|right|left..]; eexists; eexists; try eexists; reflexivity.
Qed.

Lemma keys_used {L} e a salt n (l : L) w : exists o : option bytes,
  (forall kdf, (forall p, o = Some p -> kdf a p salt n = e_pbkdf2 e a p salt n) ->
    client_keys (set_kdf e kdf) a salt n l w = client_keys e a salt n l w) /\
  (exists evs, w_trace (snd (client_keys e a salt n l w)) = w_trace w ++ evs /\
    forall p, o = Some p -> In (EvAnswer PPassword p) evs).
Proof.
  rewrite client_keys_own.
  destruct (keys_with_cases e a salt n l w) as [[r [l' [evs H]]]|[l' [evs H]]].
  - exists None. split.
    + intros kdf _. rewrite client_keys_with, !H. reflexivity.
    + exists evs. rewrite H. split; [reflexivity|discriminate].
  - destruct (password_used e a salt n l' (add_events evs w)) as [o [P1 P2]]. exists o. split.
    + intros kdf Hk. rewrite client_keys_with, !H. apply P1, Hk.
    + rewrite H. specialize (P2 (e_pbkdf2 e)).
      destruct (from_password e a salt n (e_pbkdf2 e) l' (add_events evs w)) as [[r l2] w2].
      destruct P2 as [evs2 [T I]]. exists (evs ++ evs2). split.
      * cbn [snd]. rewrite T. cbn [add_events w_trace]. rewrite <- app_assoc. reflexivity.
      * intros p Hp. apply in_or_app. right. apply I, Hp.
Qed.

(** * The server's first message *)

Lemma first_cases {L} a cb nonce user m :
  (exists r, forall e (l : L) w, handle_server_first e a (mk_wsf cb nonce user) m l w = (r, l, w)) \/
  (exists sn salt64 salt iters n, continues m nonce sn salt64 salt iters n /\
     forall e (l : L) w, handle_server_first e a (mk_wsf cb nonce user) m l w
       = hsf_answer e a cb nonce user sn salt64 iters salt n l w).
Proof.
  unfold handle_server_first, bind, scram_parse, of_res. cbn [ws_cb ws_nonce ws_username].
  destruct (server_first_parse m) as [[fn salt64 iters]|x|] eqn:Ep; cbn [rmap_err];
    [|left; eexists; intros; reflexivity..].
  apply server_first_parse_exact in Ep. destruct Ep as [Em [F1 [F2 F3]]]. cbn [sf_nonce sf_salt sf_iterations].
  destruct (strip_prefix nonce fn) as [[|c0 sn]|] eqn:Es; [left; eexists; intros; reflexivity| |left; eexists; intros; reflexivity].
  apply strip_prefix_iff in Es. subst fn. unfold from_utf8.
  destruct (utf8_valid iters); [|left; eexists; intros; reflexivity].
  destruct (parse_u32 iters) as [n|] eqn:Epu; [|left; eexists; intros; reflexivity].
  destruct (N.eqb n 0) eqn:En; [left; eexists; intros; reflexivity|]. apply N.eqb_neq in En.
  destruct (decode salt64) as [salt|] eqn:Ed; [|left; eexists; intros; reflexivity].
  right. exists (c0 :: sn), salt64, salt, iters, n. split.
  - repeat split; try assumption. discriminate.
  - reflexivity.
Qed.

Lemma answer_used {L} e a cb nonce user sn salt64 iters salt n (l : L) w : exists o : option bytes,
  (forall kdf, (forall p, o = Some p -> kdf a p salt n = e_pbkdf2 e a p salt n) ->
    hsf_answer (set_kdf e kdf) a cb nonce user sn salt64 iters salt n l w
    = hsf_answer e a cb nonce user sn salt64 iters salt n l w) /\
  (exists evs, w_trace (snd (hsf_answer e a cb nonce user sn salt64 iters salt n l w)) = w_trace w ++ evs /\
    forall p, o = Some p -> In (EvAnswer PPassword p) evs).
Proof.
  destruct (keys_used e a salt n l w) as [o [H1 [evs [T I]]]]. exists o. split.
  - intros kdf H. unfold hsf_answer, bind at 1. symmetry. unfold bind at 1. symmetry. rewrite (H1 kdf H). reflexivity.
  - exists evs. split; [|exact I]. unfold hsf_answer, bind at 1.
    destruct (client_keys e a salt n l w) as [[r1 l1] w1]. cbn [snd] in T. rewrite <- T.
    destruct r1 as [k|x|]; [|reflexivity..]. cbv zeta. unfold bind, exact. destruct (Nat.eqb _ _); [|reflexivity].
    unfold ret at 1. destruct (write_all_vectored _ l1 w1) as [[r2 l2] w2] eqn:E2.
    apply write_all_vectored_trace in E2. destruct r2; exact E2.
Qed.


(** * Steps and dialogues *)

Lemma draws_kdf {L} e kdf n : @draws L (set_kdf e kdf) n = draws e n.
Proof.
  induction n as [|n IH]; [reflexivity|]. cbn [draws]. rewrite IH. reflexivity.
Qed.
Lemma nonce_kdf {L} e kdf : @generate_nonce L (set_kdf e kdf) = generate_nonce e.
Proof. unfold generate_nonce. rewrite draws_kdf. reflexivity. Qed.
Lemma random_kdf {L} e kdf n : @random_bytes L (set_kdf e kdf) n = random_bytes e n.
Proof. unfold random_bytes. rewrite draws_kdf. reflexivity. Qed.
Lemma client_first_kdf e kdf plus : send_client_first (set_kdf e kdf) plus = send_client_first e plus.
Proof. unfold send_client_first. rewrite nonce_kdf. reflexivity. Qed.
Lemma server_first_kdf e kdf a plus input :
  handle_client_first (set_kdf e kdf) a plus input = handle_client_first e a plus input.
Proof. unfold handle_client_first. rewrite nonce_kdf, random_kdf. reflexivity. Qed.
Lemma server_final_kdf {L} e kdf a d input :
  @handle_client_final L (set_kdf e kdf) a d input = handle_client_final e a d input.
Proof. reflexivity. Qed.
Lemma scram_server_kdf e kdf a input st w :
  scram_server_step (set_kdf e kdf) a input st w = scram_server_step e a input st w.
Proof.
  destruct st as [[plus|d|]|].
  - destruct input as [i|]; [|reflexivity].
    cbv beta iota delta [scram_server_step bind getl setl].
    rewrite server_first_kdf. reflexivity.
  - destruct input; reflexivity.
  - reflexivity.
  - reflexivity.
Qed.
Lemma scram_client_kdf e kdf a input st w :
  ~ (exists ws, st = Some (ScClientFirst ws)) ->
  scram_client_step (set_kdf e kdf) a input st w = scram_client_step e a input st w.
Proof.
  intros H. destruct st as [[p|ws|ws]|].
  - cbv beta iota delta [scram_client_step bind getl setl].
    rewrite client_first_kdf. reflexivity.
  - exfalso. apply H. exists ws. reflexivity.
  - destruct input; reflexivity.
  - reflexivity.
Qed.

Lemma step_elsewhere e kdf s input script : ~ expects_salt s ->
  step (set_kdf e kdf) s input script = step e s input script.
Proof.
  intros H. unfold step, run, mech_step, bind, getl, on.
  destruct (s_mech s) as [| |st|st| | | | |st|st|st|st|a st|a st|st|st] eqn:Em;
    [reflexivity..| | |reflexivity|reflexivity].
  - rewrite scram_client_kdf; [reflexivity|].
    intros [ws Hs]. apply H. exists a, ws. rewrite Em, Hs. reflexivity.
  - rewrite scram_server_kdf. reflexivity.
Qed.

(** * A waiting client *)

Lemma waiting_unfold e a ws w m :
  scram_client_step e a (Some m) (Some (ScClientFirst ws)) w =
  match handle_server_first e a ws m None w with
  | (Ok s', _, w') => (Ok Running, Some (ScServerFirst s'), w')
  | (Err x, l, w') => (Err x, l, w')
  | (Panic, l, w') => (Panic, l, w')
  end.
Proof.
  cbv beta iota delta [scram_client_step bind getl setl ret].
  destruct (handle_server_first e a ws m None w) as [[[s'|x|] l] w']; reflexivity.
Qed.

Lemma waiting_used e s a cb nonce user input script : client_waits s a cb nonce user ->
  exists o : option (bytes * bytes * N),
  (forall kdf, (forall p salt n, o = Some (p, salt, n) -> kdf a p salt n = e_pbkdf2 e a p salt n) ->
     step (set_kdf e kdf) s input script = step e s input script) /\
  (forall p salt n, o = Some (p, salt, n) -> exists m sn salt64 iters evs,
     input = Some m /\ continues m nonce sn salt64 salt iters n /\
     new_events s (snd (step e s input script)) evs /\ In (EvAnswer PPassword p) evs).
Proof.
  intros W. unfold client_waits in W. unfold step, run, mech_step, bind, getl, on. rewrite W.
  destruct input as [m|].
  2:{ exists None. split; [reflexivity|discriminate]. }
  set (w := mk_world [] script (s_trace s) (s_rng s) (s_val s)).
  rewrite waiting_unfold.
  destruct (@first_cases (option scram_cst) a cb nonce user m) as [[r H]|[sn [salt64 [salt [iters [n [C H]]]]]]].
  - exists None. split; [|discriminate].
    intros kdf _. rewrite waiting_unfold, !H. reflexivity.
  - destruct (answer_used e a cb nonce user sn salt64 iters salt n (@None scram_cst) w) as [[p|] [A B]].
    + exists (Some (p, salt, n)). split.
      * intros kdf K. rewrite waiting_unfold, !H, A; [reflexivity|].
        intros p0 E. inversion E; subst. apply K. reflexivity.
      * intros p0 salt0 n0 E. inversion E; subst. destruct B as [evs [T I]].
        exists m, sn, salt64, iters, evs. split; [reflexivity|]. split; [exact C|].
        split; [|apply I; reflexivity].
        rewrite H. revert T. unfold new_events.
        destruct (hsf_answer e a cb nonce user sn salt64 iters salt0 n0 None w) as [[[x|x|] l'] w'];
          cbn [snd s_trace]; intros T; exact T.
    + exists None. split; [|discriminate].
      intros kdf _. rewrite waiting_unfold, !H, A; [reflexivity|discriminate].
Qed.

Lemma step_derives e kdf s a cb nonce user m script r out s' evs :
  client_waits s a cb nonce user ->
  step e s (Some m) script = (r, out, s') -> new_events s s' evs ->
  (forall sn salt64 salt iters n p, continues m nonce sn salt64 salt iters n ->
     In (EvAnswer PPassword p) evs -> kdf a p salt n = e_pbkdf2 e a p salt n) ->
  step (set_kdf e kdf) s (Some m) script = (r, out, s').
Proof.
  intros W St N K. destruct (waiting_used e s a cb nonce user (Some m) script W) as [o [A B]].
  rewrite <- St. apply A. intros p salt n E.
  destruct (B p salt n E) as [m0 [sn [salt64 [iters [evs0 [Em [C [N0 I]]]]]]]].
  inversion Em; subst m0. rewrite St in N0. cbn [snd] in N0.
  apply (K sn salt64 salt iters n p C).
  unfold new_events in N, N0. rewrite N in N0. apply app_inv_head in N0. subst. exact I.
Qed.

(** * A whole exchange *)

Definition past (st : option scram_cst) : Prop :=
  match st with Some (ScInitial _) | Some (ScClientFirst _) => False | _ => True end.
Ltac past_tac := repeat (first [lkeep_step | exact Logic.I | intros ?; exact Logic.I | unfold send_final, client_keys, esc]).

Lemma client_step_past e a input st w : (forall p, st <> Some (ScInitial p)) ->
  past (snd (fst (scram_client_step e a input st w))).
Proof.
  intros H. unfold scram_client_step, bind at 1, getl at 1, bind at 1, setl at 1.
  match goal with |- past (snd (fst (?m None w))) =>
    assert (K : lkeeps past m); [|apply (K None w); exact Logic.I] end.
  destruct st as [[p|x|x]|]; [destruct (H p); reflexivity|..];
    unfold handle_server_first, handle_server_final; past_tac.
Qed.

Lemma step_mech e s a st input script : s_mech s = XScramC a st ->
  exists w, s_mech (snd (step e s input script)) = XScramC a (snd (fst (scram_client_step e a input st w))).
Proof.
  intros H. unfold step, run, mech_step, bind, getl, on. rewrite H.
  set (w := mk_world _ _ _ _ _). exists w.
  destruct (scram_client_step e a input st w) as [[r l'] w']. reflexivity.
Qed.

Lemma past_rest e kdf l : forall s a st, s_mech s = XScramC a st -> past st ->
  dialogue (set_kdf e kdf) s l = dialogue e s l /\ after (set_kdf e kdf) s l = after e s l.
Proof.
  induction l as [|[input script] l IH]; intros s a st Hm Hp; [split; reflexivity|].
  cbn [dialogue after].
  rewrite step_elsewhere.
  2:{ intros [a' [ws E]]. rewrite Hm in E. inversion E; subst. exact Hp. }
  destruct (step_mech e s a st input script Hm) as [w Hw].
  destruct (step e s input script) as [[r out] s'] eqn:E. cbn [snd] in *.
  destruct (IH s' a _ Hw) as [D A].
  - apply client_step_past. intros p ->. exact Hp.
  - rewrite D, A. split; reflexivity.
Qed.

Lemma derived_once e l : forall s a st, s_mech s = XScramC a st ->
  exists p salt n, forall kdf, kdf a p salt n = e_pbkdf2 e a p salt n ->
  dialogue (set_kdf e kdf) s l = dialogue e s l /\ after (set_kdf e kdf) s l = after e s l.
Proof.
  induction l as [|[input script] l IH]; intros s a st Hm.
  - exists [], [], 0%N. intros. split; reflexivity.
  - destruct (step_mech e s a st input script Hm) as [w Hw]. cbn [dialogue after].
    destruct st as [[p|[cb nonce user]|ws]|].
    + destruct (IH _ a _ Hw) as [pw [salt [n K]]]. exists pw, salt, n. intros kdf E.
      specialize (K kdf E).
      rewrite step_elsewhere by (intros [a' [x Ex]]; rewrite Hm in Ex; discriminate).
      destruct (step e s input script) as [[r out] s']. cbn [snd] in *. destruct K as [-> ->]. split; reflexivity.
    + destruct (waiting_used e s a cb nonce user input script Hm) as [o [U _]].
      assert (G : forall kdf, (forall p salt n, o = Some (p, salt, n) -> kdf a p salt n = e_pbkdf2 e a p salt n) ->
        (let '(r, out, s') := step (set_kdf e kdf) s input script in (r, out) :: dialogue (set_kdf e kdf) s' l)
        = (let '(r, out, s') := step e s input script in (r, out) :: dialogue e s' l) /\
        after (set_kdf e kdf) (snd (step (set_kdf e kdf) s input script)) l
        = after e (snd (step e s input script)) l).
      { intros kdf K. rewrite (U kdf K).
        destruct (past_rest e kdf l _ a _ Hw) as [D A]; [apply client_step_past; discriminate|].
        destruct (step e s input script) as [[r out] s']. cbn [snd] in *. rewrite D, A. split; reflexivity. }
      destruct o as [[[p salt] n]|].
      * exists p, salt, n. intros kdf E. apply G. intros p0 salt0 n0 E0. inversion E0; subst. exact E.
      * exists [], [], 0%N. intros kdf _. apply G. discriminate.
    + exists [], [], 0%N. intros kdf _. apply (past_rest e kdf ((input, script) :: l) s a _ Hm Logic.I).
    + exists [], [], 0%N. intros kdf _. apply (past_rest e kdf ((input, script) :: l) s a _ Hm Logic.I).
Qed.
