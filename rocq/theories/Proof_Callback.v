(** Proofs for C11-C14 and C16. *)
From Coq Require Import Eqdep_dec.
From Verif Require Import Bytes Types World CallbackSpec Spec_Callback Spec_Basic
  BytesFacts WorldFacts Proof_Basic ExampleEnv.

Lemma mask_early_neq r : mask_early r <> Some ECbEarlyReturn.
Proof. destruct r as [[]|]; discriminate. Qed.

(** * C11 *)

Lemma run_satisfy_first {L G} (q : prop) (f : pval q -> M L G) p l w :
  match run_satisfy q f p CrOpen l w with
  | (r, st, l', w') =>
      match first_value q p with
      | None => l' = l /\ st = CrOpen /\ (exists x, r = Ok x) /\
                exists cs, only_closures cs /\ w' = add_events cs w
      | Some v =>
          exists cs1 r1 w1, only_closures cs1 /\
            f v l (add_events (cs1 ++ [EvAnswer q v]) w) = (r1, l', w1) /\
            (exists cs2, only_closures cs2 /\ w' = add_events cs2 w1) /\
            match r1 with
            | Ok g => (exists x, r = Ok x) /\ (st = CrSatisfied g \/ st = CrTaken)
            | Err _ => (exists x, r = Ok x) /\ st = CrTaken
            | Panic => r = Panic
            end
      end
  end.
Proof.
  revert w. induction p as [r|p v k IH|p c k IH|p k IH|p k IH]; intros w;
    cbn [run_satisfy first_value].
  - repeat split; eauto. exists []. rewrite add_events_nil. split; [constructor|reflexivity].
  - destruct (castp v) as [v'|]; [|apply IH].
    unfold cr_satisfy, bind, log. rewrite add_event_events.
    destruct (f v' l (add_events [EvAnswer q v'] w)) as [[[g|e|] l1] w1] eqn:Ef.
    + destruct (run_satisfy_taken q f (k (Some ECbEarlyReturn)) (CrSatisfied g) l1 w1)
        as [r [st' [cs [E [Hc Hs]]]]]; [discriminate|].
      rewrite E. exists [], (Ok g), w1. simpl app. repeat split; eauto. constructor.
    + destruct (run_satisfy_taken q f (k (Some e)) CrTaken l1 w1)
        as [r [st' [cs [E [Hc Hs]]]]]; [discriminate|].
      rewrite E. exists [], (Err e), w1. simpl app. repeat split; eauto; [constructor|tauto].
    + exists [], Panic, w1. simpl app. repeat split; eauto; [constructor|].
      exists []. rewrite add_events_nil. split; [constructor|reflexivity].
  - destruct (prop_eq_dec p q) as [E|]; [|apply IH].
    destruct c as [e|v].
    + specialize (IH (Some e) (add_event (EvClosure p) w)).
      destruct (run_satisfy q f (k (Some e)) CrOpen l (add_event (EvClosure p) w))
        as [[[r st] l'] w'].
      rewrite add_event_events in IH. destruct (first_value q (k (Some e))) as [v|].
      * destruct IH as [cs1 [r1 [w1 [Hc [Hf [H2 H3]]]]]].
        rewrite add_events_app in Hf.
        exists (EvClosure p :: cs1), r1, w1. repeat split; auto. constructor; auto.
      * destruct IH as [-> [-> [H [cs [Hc ->]]]]]. repeat split; auto.
        exists (EvClosure p :: cs). rewrite add_events_app. split; [constructor; auto|reflexivity].
    + destruct E. rewrite castp_refl. simpl eq_rect.
      unfold cr_satisfy, bind, log. rewrite !add_event_events, !add_events_app. simpl app.
      assert (Hc : only_closures [EvClosure p]) by (repeat constructor).
      destruct (f v l (add_events [EvClosure p; EvAnswer p v] w)) as [[[g|e|] l1] w1] eqn:Ef.
      * destruct (run_satisfy_taken p f (k (Some ECbEarlyReturn)) (CrSatisfied g) l1 w1)
          as [r [st' [cs [E [Hc' Hs]]]]]; [discriminate|].
        rewrite E. exists [EvClosure p], (Ok g), w1. simpl app. repeat split; eauto.
      * destruct (run_satisfy_taken p f (k (Some e)) CrTaken l1 w1)
          as [r [st' [cs [E [Hc' Hs]]]]]; [discriminate|].
        rewrite E. exists [EvClosure p], (Err e), w1. simpl app. repeat split; eauto. tauto.
      * exists [EvClosure p], Panic, w1. simpl app. repeat split; eauto.
        exists []. rewrite add_events_nil. split; [constructor|reflexivity].
  - apply IH.
  - apply IH.
Qed.

Lemma consumer_once {L G} e q c (f : pval q -> M L G) l w :
  match maybe_need_with e q c f l w with
  | (r, l', w') =>
      match first_value q (e_cb e (w_trace w) (e_sd e) c (RSatisfy q)) with
      | None =>
          l' = l /\ (r = Ok None \/ exists x, r = Err x) /\
          exists cs, only_closures cs /\ w' = add_events (EvRequest q c :: cs) w
      | Some v =>
          exists cs1 r1 w1, only_closures cs1 /\
            f v l (add_events (EvRequest q c :: cs1 ++ [EvAnswer q v]) w) = (r1, l', w1) /\
            (exists cs2, only_closures cs2 /\ w' = add_events cs2 w1) /\
            (forall g, r = Ok (Some g) -> r1 = Ok g) /\ (r = Panic <-> r1 = Panic)
      end
  end.
Proof.
  unfold maybe_need_with.
  pose proof (run_satisfy_first q f (e_cb e (w_trace w) (e_sd e) c (RSatisfy q)) l
                (add_event (EvRequest q c) w)) as H.
  destruct (run_satisfy _ _ _ _ _ _) as [[[r0 st] l0] w1].
  rewrite add_event_events in H.
  destruct (first_value q _) as [v|].
  - destruct H as [cs1 [r1 [w2 [Hc [Hf [H2 H3]]]]]]. rewrite add_events_app in Hf.
    simpl app in Hf.
    destruct r1 as [g|x|].
    + destruct H3 as [[x ->] Hst].
      destruct (mask_early x) as [[]|]; exists cs1, (Ok g), w2;
        (split; [assumption|]); (split; [assumption|]); (split; [assumption|]);
        (split; [|split; discriminate]); intros g0 Hg; try discriminate;
        destruct Hst as [-> | ->]; congruence.
    + destruct H3 as [[y ->] ->].
      destruct (mask_early y) as [[]|]; exists cs1, (Err x), w2;
        (split; [assumption|]); (split; [assumption|]); (split; [assumption|]);
        (split; [|split; discriminate]); intros g0 Hg; discriminate.
    + subst r0. exists cs1, Panic, w2.
      (split; [assumption|]); (split; [assumption|]); (split; [assumption|]).
      split; [discriminate|tauto].
  - destruct H as [-> [-> [[x ->] [cs [Hc ->]]]]]. rewrite add_events_app.
    destruct (mask_early x) as [[]|]; repeat split; eauto.
Qed.

Lemma first_value_answer q p v : answer q p = inr v -> first_value q p = Some v.
Proof.
  induction p as [r|p x k IH|p c k IH|p k IH|p k IH]; cbn [answer first_value].
  - discriminate.
  - destruct (castp x) as [y|]; [congruence|apply IH].
  - destruct (prop_eq_dec p q) as [E|]; [|apply IH]. destruct c; [discriminate|congruence].
  - apply IH.
  - apply IH.
Qed.

(** * C12 *)

Lemma run_satisfy_strip {L G} (q : prop) (f : pval q -> M L G) p st l w :
  run_satisfy q f (strip (RSatisfy q) p) st l w = run_satisfy q f p st l w.
Proof.
  revert st l w. induction p as [r|p v k IH|p c k IH|p k IH|p k IH]; intros st l w;
    cbn [strip run_satisfy].
  - reflexivity.
  - destruct (prop_eq_dec p q) as [E|N]; cbn [run_satisfy].
    + destruct (castp v) as [v'|]; [|apply IH].
      destruct (cr_satisfy q f st v' l w) as [[[r st'] l'] w']. destruct r; auto.
    + rewrite (castp_neq p q v N). apply IH.
  - destruct (prop_eq_dec p q) as [E|N]; cbn [run_satisfy].
    + destruct (prop_eq_dec p q) as [E'|N]; [|contradiction].
      destruct c as [e|v]; [apply IH|]. destruct (castp v) as [v'|]; [|apply IH].
      destruct (cr_satisfy q f st v' l (add_event (EvClosure p) w)) as [[[r st'] l'] w'].
      destruct r; auto.
    + apply IH.
  - apply IH.
  - apply IH.
Qed.

Lemma run_action_strip q p slot tr :
  run_action q (strip (RAction q) p) slot tr = run_action q p slot tr.
Proof.
  revert slot tr. induction p as [r|p v k IH|p c k IH|p k IH|p k IH]; intros slot tr;
    cbn [strip run_action].
  - reflexivity.
  - apply IH.
  - apply IH.
  - destruct (prop_eq_dec p q) as [E|N]; cbn [run_action].
    + destruct (prop_eq_dec p q) as [E'|N]; [|contradiction].
      rewrite (UIP_dec prop_eq_dec E E'). destruct slot; apply IH.
    + apply IH.
  - apply IH.
Qed.

Lemma strip_maybe {L G} e q c (f : pval q -> M L G) l w :
  maybe_need_with (strip_env e) q c f l w = maybe_need_with e q c f l w.
Proof.
  unfold maybe_need_with, strip_env, with_cb; simpl. rewrite run_satisfy_strip. reflexivity.
Qed.
Lemma strip_action {L} e q c v (l : L) w :
  action (strip_env e) q c v l w = action e q c v l w.
Proof. unfold action, strip_env, with_cb; simpl. rewrite run_action_strip. reflexivity. Qed.

(** * C13 *)

Lemma run_action_follows q v p b tr :
  exists cs r, follows p cs r /\ action_answers q v b cs /\
    run_action q p (if b then Some v else None) tr =
      (r, if b && negb (took q cs) then Some v else None,
       if b && took q cs then tr ++ [EvTaken q] else tr).
Proof.
  revert b tr. induction p as [r|p x k IH|p c k IH|p k IH|p k IH]; intros b tr;
    cbn [run_action].
  - exists [], r. repeat split; try constructor. destruct b; reflexivity.
  - destruct (IH None b tr) as [cs [r [Hf [Ha E]]]]. exists (KSatisfy p x None :: cs), r.
    repeat split; try (constructor; assumption). exact E.
  - destruct (IH None b tr) as [cs [r [Hf [Ha E]]]]. exists (KSatisfyWith p c None :: cs), r.
    repeat split; try (constructor; assumption). exact E.
  - destruct (prop_eq_dec p q) as [E|N].
    + subst p. destruct b.
      * destruct (IH (Some v) false (tr ++ [EvTaken q])) as [cs [r [Hf [Ha E]]]].
        exists (KGet q (Some v) :: cs), r. repeat split; try (constructor; assumption).
        simpl eq_rect. rewrite E. unfold took. simpl existsb.
        destruct (prop_eq_dec q q); [|congruence]. reflexivity.
      * destruct (IH None false tr) as [cs [r [Hf [Ha E]]]].
        exists (KGet q None :: cs), r. repeat split; try (constructor; assumption).
        rewrite E. reflexivity.
    + destruct (IH None b tr) as [cs [r [Hf [Ha E]]]].
      exists (KGet p None :: cs), r. repeat split; try (constructor; assumption).
      rewrite E. unfold took. simpl existsb.
      destruct (prop_eq_dec p q); [contradiction|]. reflexivity.
  - destruct (IH (if prop_eq_dec p q then true else false) b tr) as [cs [r [Hf [Ha E]]]].
    exists (KIs p (if prop_eq_dec p q then true else false) :: cs), r.
    repeat split; try (constructor; assumption). exact E.
Qed.

Lemma action_exact {L} e q c v (l : L) w :
  exists cs r, follows (e_cb e (w_trace w) (e_sd e) c (RAction q)) cs r /\
    action_answers q v true cs /\
    action e q c v l w =
      (if returned_ok r then (if took q cs then Ok tt else Err (ECbNoCallback q))
       else match r with Some x => Err x | None => Ok tt end,
       l, add_events (EvAction q v c :: if took q cs then [EvTaken q] else []) w).
Proof.
  destruct (run_action_follows q v (e_cb e (w_trace w) (e_sd e) c (RAction q)) true
              (w_trace w ++ [EvAction q v c])) as [cs [r [Hf [Ha E]]]].
  exists cs, r. split; [assumption|]. split; [assumption|].
  unfold action. rewrite E. unfold add_events. simpl andb.
  destruct (took q cs).
  - rewrite <- app_assoc. simpl app. destruct r as [[]|]; reflexivity.
  - destruct r as [[]|]; reflexivity.
Qed.

(** * C14 *)

Lemma maybe_no_early {L G} e q c (f : pval q -> M L G) l w :
  match maybe_need_with e q c f l w with
  | (Err x, _, _) => x <> ECbEarlyReturn /\ x <> ECbNoValue
  | _ => True
  end.
Proof.
  unfold maybe_need_with.
  pose proof (run_satisfy_first q f (e_cb e (w_trace w) (e_sd e) c (RSatisfy q)) l
                (add_event (EvRequest q c) w)) as H.
  destruct (run_satisfy _ _ _ _ _ _) as [[[r0 st] l0] w1].
  destruct r0 as [x|x|].
  - destruct x as [[]|]; simpl; try exact I; split; discriminate.
  - destruct (first_value q _).
    + destruct H as [? [r1 [? [_ [_ [_ H]]]]]].
      destruct r1; [destruct H as [[? ?] _]|destruct H as [[? ?] _]|]; discriminate.
    + destruct H as [_ [_ [[? ?] _]]]. discriminate.
  - exact I.
Qed.

Lemma need_no_early {L G} e q c (f : pval q -> M L G) l w :
  match need_with e q c f l w with
  | (Err x, _, _) => x <> ECbEarlyReturn /\ x <> ECbNoValue
  | _ => True
  end.
Proof.
  unfold need_with, bind. pose proof (maybe_no_early e q c f l w) as H.
  destruct (maybe_need_with e q c f l w) as [[[[g|]|x|] l1] w1]; simpl; auto.
  split; discriminate.
Qed.

Lemma need_bubbling {L G} e q c (f : pval q -> M L G) l w :
  bubbling (e_cb e (w_trace w) (e_sd e) c (RSatisfy q)) ->
  exists cs, only_closures cs /\
  need_with e q c f l w =
  match answer q (e_cb e (w_trace w) (e_sd e) c (RSatisfy q)) with
  | inl r => (need_result q (polite_none r), l, add_events (EvRequest q c :: cs) w)
  | inr v =>
      match f v l (add_events (EvRequest q c :: cs ++ [EvAnswer q v]) w) with
      | (r, l1, w1) => (need_result q (polite_result r), l1, w1)
      end
  end.
Proof.
  intros Hb. destruct (maybe_need_with_bubbling e q c f l w Hb) as [cs [Hc E]].
  exists cs. split; [assumption|]. unfold need_with, bind. rewrite E.
  destruct (answer q _) as [[[]|]|v]; try reflexivity.
  clear E. destruct (f v l _) as [[[g|[]|] l1] w1]; reflexivity.
Qed.

(** * C16 *)

Lemma cb_data_protocol {L G} e name c (f : bytes -> M L G) d l w :
  e_chan e name = Some d ->
  maybe_need_cb_data e name c f l w =
    match f d l (add_events [EvChan name] w) with
    | (Ok g, l', w') => (Ok (Some g), l', w')
    | (Err x, l', w') => (Err x, l', w')
    | (Panic, l', w') => (Panic, l', w')
    end.
Proof.
  intros H. unfold maybe_need_cb_data, bind, log. rewrite H, add_event_events.
  destruct (f d l _) as [[[]]]; reflexivity.
Qed.

Lemma cb_data_user {L G} e name c (f : bytes -> M L G) l w :
  e_chan e name = None ->
  exists c', get_ref c' PChannelBindingName = Some name /\
    (forall q, q <> PChannelBindingName -> get_ref c' q = get_ref c q) /\
    maybe_need_cb_data e name c f l w =
      maybe_need_with e PChannelBindings c' f l (add_events [EvChan name] w).
Proof.
  intros H. exists (and_provider (this_provider PChannelBindingName name) c).
  split; [reflexivity|]. split.
  - intros q Hq. unfold and_provider, this_provider.
    change ([mk_entry PChannelBindingName name] ++ c)
      with ([] ++ mk_entry PChannelBindingName name :: c).
    rewrite get_ref_other by congruence. reflexivity.
  - unfold maybe_need_cb_data, bind, log. rewrite H, add_event_events. reflexivity.
Qed.

Lemma cb_data_missing {L G} e name c (f : bytes -> M L G) l w :
  e_chan e name = None -> withholds e PChannelBindings ->
  exists w', need_cb_data e name c f l w = (Err (EMissingChannelBindingData name), l, w') /\
             w_out w' = w_out w.
Proof.
  intros H Hw. destruct (cb_data_user e name c f l w H) as [c' [_ [_ E]]].
  destruct (maybe_need_with_withholds e PChannelBindings c' f l (add_events [EvChan name] w) Hw)
    as [cs [_ E2]].
  unfold need_cb_data, bind. rewrite E, E2. eexists; split; reflexivity.
Qed.

Lemma cb_data_provided {L G} e name c (f : bytes -> M L G) d l w g l' :
  e_chan e name = None -> provides e PChannelBindings d ->
  (forall w1, exists w2, f d l w1 = (Ok g, l', w2)) ->
  exists w', need_cb_data e name c f l w = (Ok g, l', w').
Proof.
  intros H Hp Hf. destruct (cb_data_user e name c f l w H) as [c' [_ [_ E]]].
  destruct (maybe_need_with_provides e PChannelBindings d c' f l (add_events [EvChan name] w) Hp)
    as [cs [_ E2]].
  unfold need_cb_data, bind. rewrite E, E2.
  destruct (Hf (add_events (EvRequest PChannelBindings c' :: cs ++ [EvAnswer PChannelBindings d])
    (add_events [EvChan name] w))) as [w2 ->]. eexists; reflexivity.
Qed.

(** * Witnesses *)

(** Satisfies twice, the second time with a closure; ignores all results. *)
Definition twice (q : prop) (v1 v2 : pval q) : cbprog :=
  CSatisfy q v1 (fun _ => CSatisfyWith q (inr v2) (fun _ => CRet None)).

Lemma twice_lost {L G} e q c (f : pval q -> M L G) l w v1 v2 g l' w' :
  e_cb e (w_trace w) (e_sd e) c (RSatisfy q) = twice q v1 v2 ->
  f v1 l (add_events [EvRequest q c; EvAnswer q v1] w) = (Ok g, l', w') ->
  need_with e q c f l w = (Err (ECbNoCallback q), l', add_events [EvClosure q] w').
Proof.
  intros Hcb Hf. unfold need_with, maybe_need_with, bind. rewrite Hcb.
  unfold twice. cbn [run_satisfy]. rewrite !castp_refl.
  unfold cr_satisfy at 1. unfold bind, log. rewrite !add_event_events, add_events_app.
  simpl app. rewrite Hf. destruct (prop_eq_dec q q); [|congruence].
  reflexivity.
Qed.

(** Returns an own error if the second satisfy does not return Ok. *)
Definition probe (q : prop) (v : pval q) : cbprog :=
  CSatisfy q v (fun _ => CSatisfy q v (fun r =>
    match r with None => CRet None | Some _ => CRet (Some (EBoxed 1)) end)).

Lemma second_not_ok {L G} e q c (f : pval q -> M L G) l w v g l' w' :
  e_cb e (w_trace w) (e_sd e) c (RSatisfy q) = probe q v ->
  f v l (add_events [EvRequest q c; EvAnswer q v] w) = (Ok g, l', w') ->
  need_with e q c f l w = (Err (EBoxed 1), l', w').
Proof.
  intros Hcb Hf. unfold need_with, maybe_need_with, bind. rewrite Hcb.
  unfold probe. cbn [run_satisfy]. rewrite !castp_refl.
  unfold cr_satisfy at 1. unfold bind, log. rewrite !add_event_events, add_events_app.
  simpl app. rewrite Hf. reflexivity.
Qed.
