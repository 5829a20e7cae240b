(** C11-C14, C16. *)
From Verif Require Import Bytes Types World CallbackSpec Spec_Callback ExampleEnv
  WorldFacts Proof_Callback.

(** C11, part that holds for every callback whatsoever: the consumer of a request runs
    exactly if the callback satisfies the requested property at least once, exactly once,
    on the first value; afterwards only closures may be evaluated; a value delivered to the
    mechanism is the one computed from the first value.
    Missing (see the refutations below): after a second satisfy call the first value is
    lost, the second call does not return Ok, and closures of later calls are evaluated. *)
Theorem C11_consumer_once_partial : forall L G e q c (f : pval q -> M L G) l w,
  match maybe_need_with e q c f l w with
  | (r, l', w') =>
      match first_value q (e_cb e (w_trace w) (e_sd e) c (RSatisfy q)) with
      | None =>
          l' = l /\ (r = Ok None \/ exists x, r = Err x) /\
          exists cs, only_closures cs /\ w' = add_events (EvRequest q c :: cs) w
      | Some v =>
          exists cs1 r1 w1, only_closures cs1 /\
            f v l (add_events (EvRequest q c :: cs1 ++ [EvAnswer q v]) w) = (r1, l', w1) /\
            (exists cs2, only_closures cs2 /\ w' = add_events cs2 w1) /\
            (forall g, r = Ok (Some g) -> r1 = Ok g) /\ (r = Panic <-> r1 = Panic)
      end
  end.
Proof. exact @consumer_once. Qed.
Print Assumptions C11_consumer_once_partial.

(** A callback program with two matching calls: the first one counts. *)
Example C11_once_example :
  first_value PAuthId (CSatisfy PPassword (lit "p") (fun _ =>
    CSatisfyWith PAuthId (inl (EBoxed 3)) (fun _ => twice PAuthId (lit "a") (lit "b"))))
  = Some (lit "a").
Proof. reflexivity. Qed.

(** C11 fails: whatever the values and whatever the consumer (as long as it succeeds), a
    callback that satisfies a request twice makes the required request fail with NoCallback
    although the consumer has run, and the closure of the second call is evaluated. *)
Theorem C11_value_lost_refuted : forall L G e q c (f : pval q -> M L G) l w v1 v2 g l' w',
  e_cb e (w_trace w) (e_sd e) c (RSatisfy q) = twice q v1 v2 ->
  f v1 l (add_events [EvRequest q c; EvAnswer q v1] w) = (Ok g, l', w') ->
  need_with e q c f l w = (Err (ECbNoCallback q), l', add_events [EvClosure q] w').
Proof. exact @twice_lost. Qed.
Print Assumptions C11_value_lost_refuted.

Example C11_lost_example :
  fst (fst (need_with (ex_env (fun _ => twice PAuthId (lit "a") (lit "b")) no_vcb no_chan)
              PAuthId empty_provider (fun v => ret v) tt w0)) = Err (ECbNoCallback PAuthId).
Proof. reflexivity. Qed.

(** C11 fails: the second satisfy call returns an error, not Ok. *)
Theorem C11_second_not_ok_refuted : forall L G e q c (f : pval q -> M L G) l w v g l' w',
  e_cb e (w_trace w) (e_sd e) c (RSatisfy q) = probe q v ->
  f v l (add_events [EvRequest q c; EvAnswer q v] w) = (Ok g, l', w') ->
  need_with e q c f l w = (Err (EBoxed 1), l', w').
Proof. exact @second_not_ok. Qed.
Print Assumptions C11_second_not_ok_refuted.

Example C11_second_example :
  fst (fst (need_with (ex_env (fun _ => probe PAuthId (lit "a")) no_vcb no_chan)
              PAuthId empty_provider (fun v => ret v) tt w0)) = Err (EBoxed 1).
Proof. reflexivity. Qed.

(** C12: calls that do not concern the request have no influence whatsoever: deleting all
    of them from the callback changes neither result nor effects of a request ... *)
Theorem C12_satisfy : forall L G e q c (f : pval q -> M L G) l w,
  maybe_need_with (strip_env e) q c f l w = maybe_need_with e q c f l w.
Proof. exact @strip_maybe. Qed.
Print Assumptions C12_satisfy.

(** ... nor of an action. *)
Theorem C12_action : forall L e q c v (l : L) w,
  action (strip_env e) q c v l w = action e q c v l w.
Proof. exact @strip_action. Qed.
Print Assumptions C12_action.

Example C12_example :
  strip (RSatisfy PAuthId)
    (CSatisfy PPassword (lit "x") (fun _ => CSatisfyWith PRealm (inl (EBoxed 1)) (fun _ =>
       CGetAction PAuthId (fun _ => CSatisfy PAuthId (lit "me") CRet))))
  = CSatisfy PAuthId (lit "me") (fun x => CRet x).
Proof. reflexivity. Qed.

(** C13: an action succeeds exactly if the callback returns Ok and took the value, the first
    get_action for the property yields the value and every other one None. *)
Theorem C13_action : forall L e q c v (l : L) w,
  exists cs r, follows (e_cb e (w_trace w) (e_sd e) c (RAction q)) cs r /\
    action_answers q v true cs /\
    action e q c v l w =
      (if returned_ok r then (if took q cs then Ok tt else Err (ECbNoCallback q))
       else match r with Some x => Err x | None => Ok tt end,
       l, add_events (EvAction q v c :: if took q cs then [EvTaken q] else []) w).
Proof. exact @action_exact. Qed.
Print Assumptions C13_action.

(** Not taken; taken by a callback asking for another property first and twice for this. *)
Example C13_example :
  fst (fst (action (ex_env (fun _ => CGetAction PAuthId (fun _ => CRet None)) no_vcb no_chan)
              PXOAuth2Error empty_provider (lit "err") tt w0))
    = Err (ECbNoCallback PXOAuth2Error) /\
  fst (fst (action (ex_env (fun _ => CGetAction PAuthId (fun _ =>
              CGetAction PXOAuth2Error (fun a => CGetAction PXOAuth2Error (fun b =>
                match a, b with Some _, None => CRet None | _, _ => CRet (Some (EBoxed 0)) end))))
              no_vcb no_chan) PXOAuth2Error empty_provider (lit "err") tt w0)) = Ok tt.
Proof. split; reflexivity. Qed.

(** C14: outcome of a required request for every error-propagating callback. *)
Theorem C14_need_with : forall L G e q c (f : pval q -> M L G) l w,
  bubbling (e_cb e (w_trace w) (e_sd e) c (RSatisfy q)) ->
  exists cs, only_closures cs /\
  need_with e q c f l w =
  match answer q (e_cb e (w_trace w) (e_sd e) c (RSatisfy q)) with
  | inl r => (need_result q (polite_none r), l, add_events (EvRequest q c :: cs) w)
  | inr v =>
      match f v l (add_events (EvRequest q c :: cs ++ [EvAnswer q v]) w) with
      | (r, l1, w1) => (need_result q (polite_result r), l1, w1)
      end
  end.
Proof. exact @need_bubbling. Qed.
Print Assumptions C14_need_with.

(** C14: the same for an optional request. *)
Theorem C14_maybe_need_with : forall L G e q c (f : pval q -> M L G) l w,
  bubbling (e_cb e (w_trace w) (e_sd e) c (RSatisfy q)) ->
  exists cs, only_closures cs /\
  maybe_need_with e q c f l w =
  match answer q (e_cb e (w_trace w) (e_sd e) c (RSatisfy q)) with
  | inl r => (polite_none r, l, add_events (EvRequest q c :: cs) w)
  | inr v =>
      match f v l (add_events (EvRequest q c :: cs ++ [EvAnswer q v]) w) with
      | (r, l1, w1) => (polite_result r, l1, w1)
      end
  end.
Proof. exact @maybe_need_with_bubbling. Qed.
Print Assumptions C14_maybe_need_with.

(** C14: for every callback, EarlyReturn and NoValue never escape. *)
Theorem C14_no_early_return : forall L G e q c (f : pval q -> M L G) l w,
  match need_with e q c f l w with
  | (Err x, _, _) => x <> ECbEarlyReturn /\ x <> ECbNoValue
  | _ => True
  end.
Proof. exact @need_no_early. Qed.
Print Assumptions C14_no_early_return.

Example C14_example :
  let cb := ex_cb [mk_entry PPassword (lit "pw")] in
  bubbling cb /\ answer PPassword cb = inr (lit "pw") /\ answer PAuthId cb = inl None /\
  fst (fst (need_with (ex_env (fun _ => cb) no_vcb no_chan) PPassword empty_provider
              (fun v => ret v) tt w0)) = Ok (lit "pw") /\
  fst (fst (need_with (ex_env (fun _ => cb) no_vcb no_chan) PAuthId empty_provider
              (fun v => ret v) tt w0)) = Err (ECbNoCallback PAuthId).
Proof. repeat split; reflexivity. Qed.

(** C16: data known to the protocol is used and the callback is not asked. *)
Theorem C16_protocol_first : forall L G e name c (f : bytes -> M L G) d l w,
  e_chan e name = Some d ->
  maybe_need_cb_data e name c f l w =
    match f d l (add_events [EvChan name] w) with
    | (Ok g, l', w') => (Ok (Some g), l', w')
    | (Err x, l', w') => (Err x, l', w')
    | (Panic, l', w') => (Panic, l', w')
    end.
Proof. exact @cb_data_protocol. Qed.
Print Assumptions C16_protocol_first.

(** C16: otherwise the callback is asked, with the requested name in the context. *)
Theorem C16_callback_second : forall L G e name c (f : bytes -> M L G) l w,
  e_chan e name = None ->
  exists c', get_ref c' PChannelBindingName = Some name /\
    (forall q, q <> PChannelBindingName -> get_ref c' q = get_ref c q) /\
    maybe_need_cb_data e name c f l w =
      maybe_need_with e PChannelBindings c' f l (add_events [EvChan name] w).
Proof. exact @cb_data_user. Qed.
Print Assumptions C16_callback_second.

(** C16: if neither has it the step fails naming the missing binding. *)
Theorem C16_missing : forall L G e name c (f : bytes -> M L G) l w,
  e_chan e name = None -> withholds e PChannelBindings ->
  exists w', need_cb_data e name c f l w = (Err (EMissingChannelBindingData name), l, w') /\
             w_out w' = w_out w.
Proof. exact @cb_data_missing. Qed.
Print Assumptions C16_missing.

(** C16: data the callback provides reaches the mechanism. *)
Theorem C16_provided : forall L G e name c (f : bytes -> M L G) d l w g l',
  e_chan e name = None -> provides e PChannelBindings d ->
  (forall w1, exists w2, f d l w1 = (Ok g, l', w2)) ->
  exists w', need_cb_data e name c f l w = (Ok g, l', w').
Proof. exact @cb_data_provided. Qed.
Print Assumptions C16_provided.

Example C16_example :
  withholds (ex_env (fun _ => ex_cb []) no_vcb no_chan) PChannelBindings /\
  provides (ex_env (fun _ => ex_cb [mk_entry PChannelBindings (lit "cb")]) no_vcb no_chan)
    PChannelBindings (lit "cb") /\
  fst (fst (need_cb_data (ex_env (fun _ => ex_cb []) no_vcb no_chan) (lit "tls-exporter")
              empty_provider (fun d => ret d) tt w0))
    = Err (EMissingChannelBindingData (lit "tls-exporter")).
Proof.
  split; [|split]; [| |reflexivity]; intros tr c; simpl.
  - split; [exact I|]. left; reflexivity.
  - repeat split; reflexivity.
Qed.
