(** Lemmas about the size of a server's answers. *)
From Coq Require Import Lia.
From Verif Require Import Bytes BytesFacts Utf8 Base64 Base64Facts Num NumFacts Types World CallbackSpec WorldFacts
  MonadFacts Simple OAuth ScramParser Scram Gssapi Session Spec_Simple Spec_ScramText Spec_Scram Proof_Simple Proof_Scram Proof_Evidence Spec_Answer.
Open Scope m_scope.

Lemma supplied_app e a b : supplied e (a ++ b) = supplied e a + supplied e b.
Proof. unfold supplied. rewrite map_app, list_sum_app. reflexivity. Qed.
Lemma supplied_closures e cs : only_closures cs -> supplied e cs = 0.
Proof.
  intros H. induction H as [|ev cs Hev _ IH]; [reflexivity|].
  unfold supplied in *. cbn [map list_sum]. destruct ev; try contradiction; cbn [given]; simpl; exact IH.
Qed.

(** [m] may write [k] bytes and what the application supplies; it leaves [c a] unused if it returns
    [a]. *)
Definition pays {L A} (e : env) (k : nat) (m : M L A) (c : A -> nat) : Prop :=
  forall l w r l' w', m l w = (r, l', w') -> exists d evs,
    w_out w' = w_out w ++ d /\ w_trace w' = w_trace w ++ evs /\
    length d + match r with Ok a => c a | _ => 0 end <= k + supplied e evs.

(** [m] writes nothing and shows nothing to the application. *)
Definition still {L A} (m : M L A) : Prop :=
  forall l w r l' w', m l w = (r, l', w') -> w_out w' = w_out w /\ w_trace w' = w_trace w.

Lemma pays_still {L A} e k (m : M L A) (c : A -> nat) :
  still m -> (forall l w a l' w', m l w = (Ok a, l', w') -> c a <= k) -> pays e k m c.
Proof.
  intros Hs Hc l w r l' w' E. destruct (Hs _ _ _ _ _ E) as [Ho Ht].
  exists [], []. rewrite !app_nil_r. split; [exact Ho|]. split; [exact Ht|].
  destruct r as [a|x|]; cbn [length]; try lia. specialize (Hc _ _ _ _ _ E). lia.
Qed.
Lemma pays_bind {L A B} e k (m : M L A) (f : A -> M L B) c1 c2 :
  pays e k m c1 -> (forall a, pays e (c1 a) (f a) c2) -> pays e k (bind m f) c2.
Proof.
  intros Hm Hf l w r l' w' E. unfold bind in E.
  destruct (m l w) as [[[a|x|] l1] w1] eqn:Em.
  - destruct (Hm _ _ _ _ _ Em) as [d1 [v1 [O1 [T1 B1]]]].
    destruct (Hf _ _ _ _ _ _ E) as [d2 [v2 [O2 [T2 B2]]]].
    exists (d1 ++ d2), (v1 ++ v2). rewrite app_length, supplied_app.
    split; [rewrite O2, O1, app_assoc; reflexivity|]. split; [rewrite T2, T1, app_assoc; reflexivity|]. lia.
  - injection E as <- <- <-. exact (Hm _ _ _ _ _ Em).
  - injection E as <- <- <-. exact (Hm _ _ _ _ _ Em).
Qed.
Lemma pays_weaken {L A} e k k' (m : M L A) c c' :
  pays e k m c -> k <= k' -> (forall a, c' a <= c a) -> pays e k' m c'.
Proof.
  intros H Hk Hc l w r l' w' E. destruct (H _ _ _ _ _ E) as [d [v [O [T B]]]].
  exists d, v. split; [exact O|]. split; [exact T|]. destruct r as [a|x|]; try lia. specialize (Hc a). lia.
Qed.
Lemma pays_ret {L A} e k (a : A) c : c a <= k -> pays e k (@ret L A a) c.
Proof.
  intros H. apply pays_still; [intros l w r l' w' [= <- <- <-]; auto|].
  intros l w b l' w' [= <- <- <-]. exact H.
Qed.
Lemma pays_fail {L A} e k x c : pays e k (@fail L A x) c.
Proof. apply pays_still; [intros l w r l' w' [= <- <- <-]; auto|]. intros l w b l' w' [=]. Qed.
Lemma pays_panic {L A} e k c : pays e k (@panic L A) c.
Proof. apply pays_still; [intros l w r l' w' [= <- <- <-]; auto|]. intros l w b l' w' [=]. Qed.
Lemma pays_getl {L} e k : pays e k (@getl L) (fun _ => k).
Proof. apply pays_still; [intros l w r l' w' [= <- <- <-]; auto|]. reflexivity. Qed.
Lemma pays_setl {L} e k (x : L) : pays e k (setl x) (fun _ => k).
Proof. apply pays_still; [intros l w r l' w' [= <- <- <-]; auto|]. reflexivity. Qed.
Lemma pays_of_res {L A} e k (x : res serr A) c : (forall a, x = Ok a -> c a <= k) -> pays e k (@of_res L A x) c.
Proof.
  intros H. apply pays_still; [intros l w r l' w' [= <- <- <-]; auto|].
  intros l w b l' w' [= E _ _]. auto.
Qed.
Lemma pays_write_all {L} e k data : pays e (length data + k) (@write_all L data) (fun _ => k).
Proof.
  intros l w r l' w' E. destruct (write_all_spec data l w) as [p [q [w1 [Hd [Hw H]]]]].
  destruct Hw as [Ho [Ht _]]. exists p, []. rewrite app_nil_r. change (supplied e []) with 0.
  rewrite Hd, app_length. destruct H as [[H _]|[x H]]; rewrite H in E; injection E as <- <- <-;
    (split; [exact Ho|split; [exact Ht|lia]]).
Qed.
Lemma pays_write_all_vectored {L} e k bufs :
  pays e (length (concat bufs) + k) (@write_all_vectored L bufs) (fun _ => k).
Proof.
  intros l w r l' w' E. destruct (write_all_vectored_spec bufs l w) as [p [q [w1 [Hd [Hw H]]]]].
  destruct Hw as [Ho [Ht _]]. exists p, []. rewrite app_nil_r. change (supplied e []) with 0.
  rewrite Hd, app_length. destruct H as [[H _]|[x H]]; rewrite H in E; injection E as <- <- <-;
    (split; [exact Ho|split; [exact Ht|lia]]).
Qed.
Lemma pays_validate {L} e k c : pays e k (@validate L e c) (fun _ => k).
Proof.
  intros l w r l' w' E. unfold validate in E. destruct (run_validate _ _ _) as [[v|] slot];
    injection E as <- <- <-; exists [], [EvValidate c]; rewrite app_nil_r; cbn [w_out w_trace length];
    (split; [reflexivity|split; [reflexivity|]]); simpl; lia.
Qed.
Lemma pays_draws {L} e k n c :
  (forall l, length l = n -> c l <= k) -> pays e k (@draws L e n) c.
Proof.
  intros Hc. assert (H : forall l w r l' w', @draws L e n l w = (r, l', w') ->
    (w_out w' = w_out w /\ w_trace w' = w_trace w) /\ forall x, r = Ok x -> length x = n).
  { clear Hc. induction n as [|n IH]; intros l w r l' w' E.
    - injection E as <- <- <-. split; [auto|]. intros x [= <-]. reflexivity.
    - cbn [draws] in E. unfold bind, draw, ret in E.
      match type of E with match draws e n ?a ?b with _ => _ end = _ =>
        destruct (draws e n a b) as [[r1 l1] w1] eqn:E1 end.
      destruct (IH _ _ _ _ _ E1) as [S1 N1]. cbn [w_out w_trace] in S1.
      destruct r1 as [x|x|]; injection E as <- <- <-; (split; [exact S1|]); intros y Hy; inversion Hy; subst.
      cbn [length]. rewrite (N1 x eq_refl). reflexivity. }
  apply pays_still; intros l w r l' w' E; destruct (H _ _ _ _ _ E) as [Hs Hn]; [exact Hs|].
  apply Hc. apply Hn. reflexivity.
Qed.
Lemma pays_nonce {L} e k c :
  (forall x : bytes, length x = 24 -> c x <= k) -> pays e k (@generate_nonce L e) c.
Proof.
  intros H. unfold generate_nonce. eapply pays_bind.
  - apply (pays_draws e k nonce_len (fun l => c (map pick l))). intros l Hl. apply H. rewrite map_length. exact Hl.
  - intros l. apply pays_ret. reflexivity.
Qed.
Lemma pays_random {L} e k n c :
  (forall x : bytes, length x = n -> c x <= k) -> pays e k (@random_bytes L e n) c.
Proof.
  intros H. unfold random_bytes. eapply pays_bind.
  - apply (pays_draws e k n (fun l => c (map (fun x => ascii_of_N (N.modulo x 256)) l))). intros l Hl.
    apply H. rewrite map_length. exact Hl.
  - intros l. apply pays_ret. reflexivity.
Qed.
Lemma pays_locally {L L' A} e k (l0 : L') (m : M L' A) c :
  pays e k m c -> pays e k (@locally L L' A l0 m) (fun x => c (fst x)).
Proof.
  intros H l w r l' w' E. unfold locally in E. destruct (m l0 w) as [[[a|x|] l1] w1] eqn:Em;
    injection E as <- <- <-; exact (H _ _ _ _ _ Em).
Qed.
Lemma pays_on {L A} e k (wrap : L -> mech) l0 (m : M L A) c :
  pays e k m c -> pays e k (on wrap l0 m) c.
Proof.
  intros H l w r l' w' E. unfold on in E. destruct (m l0 w) as [[r1 l1] w1] eqn:Em.
  injection E as <- <- <-. exact (H _ _ _ _ _ Em).
Qed.

Lemma out_events evs w : w_out (add_events evs w) = w_out w.
Proof. reflexivity. Qed.
Lemma trace_events evs w : w_trace (add_events evs w) = w_trace w ++ evs.
Proof. reflexivity. Qed.
Lemma supplied_asked e q c cs v :
  only_closures cs -> supplied e (EvRequest q c :: cs ++ [EvAnswer q v]) = given e (EvAnswer q v).
Proof.
  intros H. change (EvRequest q c :: cs ++ [EvAnswer q v]) with ([EvRequest q c] ++ cs ++ [EvAnswer q v]).
  rewrite !supplied_app, (supplied_closures e cs H). unfold supplied at 1 2. cbn [map list_sum given].
  simpl. lia.
Qed.

(** The consumer sends what it is given. *)
Lemma pays_sending {L G} e k q c (f : pval q -> M L G) :
  (forall v, pays e (k + given e (EvAnswer q v)) (f v) (fun _ => 0)) ->
  pays e k (maybe_need_with e q c f) (fun _ => 0).
Proof.
  intros Hf l w r l' w' E. apply maybe_need_with_inv in E.
  assert (Z : forall r : res serr (option G), match r with Ok _ => 0 | _ => 0 end = 0) by (intros []; reflexivity).
  rewrite Z. clear Z. inversion E as [cs r0 Hc _|v cs1 cs2 g r0 l1 w1 H1 H2 Ef _|v cs1 cs2 x r0 l1 w1 H1 H2 Ef _|v cs1 l1 w1 H1 Ef]; subst.
  - exists [], (EvRequest q c :: cs). rewrite app_nil_r, out_events, trace_events.
    split; [reflexivity|]. split; [reflexivity|]. cbn [length]. lia.
  - destruct (Hf _ _ _ _ _ _ Ef) as [d [evs [O [T B]]]]. rewrite trace_events in T. rewrite out_events in O.
    exists d, ((EvRequest q c :: cs1 ++ [EvAnswer q v]) ++ evs ++ cs2).
    rewrite out_events, trace_events, O, T. split; [reflexivity|]. split; [rewrite !app_assoc; reflexivity|].
    rewrite !supplied_app, supplied_asked by assumption. lia.
  - destruct (Hf _ _ _ _ _ _ Ef) as [d [evs [O [T B]]]]. rewrite trace_events in T. rewrite out_events in O.
    exists d, ((EvRequest q c :: cs1 ++ [EvAnswer q v]) ++ evs ++ cs2).
    rewrite out_events, trace_events, O, T. split; [reflexivity|]. split; [rewrite !app_assoc; reflexivity|].
    rewrite !supplied_app, supplied_asked by assumption. lia.
  - destruct (Hf _ _ _ _ _ _ Ef) as [d [evs [O [T B]]]]. rewrite trace_events in T. rewrite out_events in O.
    exists d, ((EvRequest q c :: cs1 ++ [EvAnswer q v]) ++ evs).
    rewrite O, T. split; [reflexivity|]. split; [rewrite !app_assoc; reflexivity|].
    rewrite !supplied_app, supplied_asked by assumption. lia.
Qed.

(** The consumer keeps what it is given for later. *)
Lemma pays_keeping {L G} e k q c (f : pval q -> M L G) (cg : G -> nat) :
  (forall v, still (f v)) ->
  (forall v l w g l' w', f v l w = (Ok g, l', w') -> cg g <= given e (EvAnswer q v)) ->
  pays e k (maybe_need_with e q c f) (fun o => match o with Some g => k + cg g | None => k end).
Proof.
  intros Hs Hg l w r l' w' E. apply maybe_need_with_inv in E.
  inversion E as [cs r0 Hc Hr|v cs1 cs2 g r0 l1 w1 H1 H2 Ef Hr|v cs1 cs2 x r0 l1 w1 H1 H2 Ef Hr|v cs1 l1 w1 H1 Ef]; subst.
  - exists [], (EvRequest q c :: cs). rewrite app_nil_r, out_events, trace_events.
    split; [reflexivity|]. split; [reflexivity|]. cbn [length]. destruct Hr as [->|[x ->]]; lia.
  - destruct (Hs _ _ _ _ _ _ Ef) as [O T]. rewrite trace_events in T. rewrite out_events in O.
    exists [], ((EvRequest q c :: cs1 ++ [EvAnswer q v]) ++ cs2).
    rewrite app_nil_r, out_events, trace_events, O, T. split; [reflexivity|]. split; [rewrite !app_assoc; reflexivity|].
    rewrite supplied_app, supplied_asked by assumption. specialize (Hg _ _ _ _ _ _ Ef).
    cbn [length]. destruct Hr as [->|[->|[x ->]]]; lia.
  - destruct (Hs _ _ _ _ _ _ Ef) as [O T]. rewrite trace_events in T. rewrite out_events in O.
    exists [], ((EvRequest q c :: cs1 ++ [EvAnswer q v]) ++ cs2).
    rewrite app_nil_r, out_events, trace_events, O, T. split; [reflexivity|]. split; [rewrite !app_assoc; reflexivity|].
    rewrite supplied_app, supplied_asked by assumption.
    cbn [length]. destruct Hr as [->|[y ->]]; lia.
  - destruct (Hs _ _ _ _ _ _ Ef) as [O T]. rewrite trace_events in T. rewrite out_events in O.
    exists [], ((EvRequest q c :: cs1 ++ [EvAnswer q v])).
    rewrite app_nil_r, O, T. split; [reflexivity|]. split; [reflexivity|]. cbn [length]. lia.
Qed.
Lemma pays_need {L G} e k q c (f : pval q -> M L G) :
  (forall v, pays e (k + given e (EvAnswer q v)) (f v) (fun _ => 0)) ->
  pays e k (need_with e q c f) (fun _ => 0).
Proof.
  intros H. unfold need_with. eapply pays_bind; [apply pays_sending; exact H|].
  intros [g|]; [apply pays_ret; reflexivity|apply pays_fail].
Qed.
Lemma pays_cb_data {L G} e k name c (f : bytes -> M L G) :
  (forall v, still (f v)) -> pays e k (need_cb_data e name c f) (fun _ => k).
Proof.
  intros H. unfold need_cb_data, maybe_need_cb_data. eapply pays_bind with (c1 := fun _ => k).
  - eapply pays_bind with (c1 := fun _ => k).
    + intros l w r l' w' [= <- <- <-]. exists [], [EvChan name]. rewrite app_nil_r.
      split; [reflexivity|]. split; [reflexivity|]. simpl. lia.
    + intros _. destruct (e_chan e name) as [d|].
      * eapply pays_bind with (c1 := fun _ => k); [apply pays_still; [apply H|reflexivity]|].
        intros g. apply pays_ret. reflexivity.
      * eapply pays_weaken; [apply (pays_keeping e k PChannelBindings _ f (fun _ => 0)); [exact H|intros; lia]| |].
        -- reflexivity.
        -- intros [g|]; lia.
  - intros [g|]; [apply pays_ret; reflexivity|apply pays_fail].
Qed.

(** * The mechanisms *)

Lemma pays_login e input : pays e 10 (login_server_step e input) (fun _ => 0).
Proof.
  unfold login_server_step. eapply pays_bind; [apply pays_getl|]. intros [| |u|].
  - eapply pays_bind with (c1 := fun _ => 0); [exact (pays_write_all e 0 login_prompt1)|]. intros _.
    eapply pays_bind; [apply pays_setl|]. intros []. apply pays_ret. lia.
  - destruct input as [i|]; [|apply pays_fail]. destruct (from_utf8 i); [|apply pays_fail].
    eapply pays_bind with (c1 := fun _ => 1); [exact (pays_write_all e 1 login_prompt2)|]. intros _.
    eapply pays_bind; [apply pays_setl|]. intros []. apply pays_ret. lia.
  - destruct input as [i|]; [|apply pays_fail].
    eapply pays_bind; [apply pays_validate|]. intros [].
    eapply pays_bind; [apply pays_setl|]. intros []. apply pays_ret. lia.
  - apply pays_fail.
Qed.

Lemma pays_simple e k c : pays (L := unit) e k (validate e c ;;; ret (Finished false)) (fun _ => 0).
Proof. eapply pays_bind; [apply pays_validate|]. intros []. apply pays_ret. lia. Qed.
Lemma pays_plain e input : pays e 0 (plain_server_step e input) (fun _ => 0).
Proof.
  unfold plain_server_step.
  repeat first [apply pays_fail | apply pays_simple | match goal with |- context [match ?x with _ => _ end] => destruct x end].
Qed.
Lemma pays_external e input : pays e 0 (external_server_step e input) (fun _ => 0).
Proof. unfold external_server_step. destruct (from_utf8 _); [apply pays_simple|apply pays_fail]. Qed.
Lemma pays_anonymous e input : pays e 0 (anonymous_server_step e input) (fun _ => 0).
Proof. unfold anonymous_server_step. destruct (from_utf8 _); [apply pays_simple|apply pays_fail]. Qed.

Lemma pays_xoauth2 e input : pays e 0 (xoauth2_server_step e input) (fun _ => 0).
Proof.
  unfold xoauth2_server_step. eapply pays_bind; [apply pays_getl|]. intros [|]; [|apply pays_ret; lia].
  destruct input as [i|]; [|apply pays_fail].
  eapply pays_bind with (c1 := fun _ => 0); [apply pays_of_res; intros; lia|]. intros [u t].
  eapply pays_bind with (c1 := fun _ => 0).
  - apply pays_need. intros [report|]; cbn [given].
    + eapply pays_bind with (c1 := fun _ => 0); [eapply pays_weaken; [apply (pays_write_all e 0 report)|lia|intros; reflexivity]|]. intros _.
      eapply pays_bind; [apply pays_setl|]. intros []. apply pays_ret. lia.
    + apply pays_ret. lia.
  - intros x. eapply pays_bind; [apply pays_validate|]. intros []. apply pays_ret. lia.
Qed.
Lemma pays_oauthbearer e input : pays e 0 (oauthbearer_server_step e input) (fun _ => 0).
Proof.
  unfold oauthbearer_server_step. eapply pays_bind; [apply pays_getl|]. intros [|]; [|apply pays_ret; lia].
  destruct input as [i|]; [|apply pays_fail].
  eapply pays_bind with (c1 := fun _ => 0); [apply pays_of_res; intros; lia|]. intros msg.
  eapply pays_bind with (c1 := fun _ => 0).
  - apply pays_need. intros [report|]; cbn [given].
    + eapply pays_bind with (c1 := fun _ => 0).
      * intros l w r l' w' E. unfold write_json in E.
        destruct (write_all (e_json_to e report) l w) as [[r1 l1] w1] eqn:Ew.
        destruct (pays_write_all e 0 _ _ _ _ _ _ Ew) as [d [evs [O [T B]]]].
        exists d, evs. destruct r1 as [[]|x|]; injection E as <- <- <-; (split; [exact O|split; [exact T|lia]]).
      * intros _. eapply pays_bind; [apply pays_setl|]. intros []. apply pays_ret. lia.
    + apply pays_ret. lia.
  - intros x. eapply pays_bind; [apply pays_validate|]. intros []. apply pays_ret. lia.
Qed.

Lemma nonce_short input cf : client_first_parse input = Ok cf -> length (cf_nonce cf) + 8 <= length input.
Proof.
  intros H. destruct (parse_fields _ _ H) as [two [t [-> [H2 _]]]].
  assert (F : 1 <= length (flag_text (cf_cbflag cf))) by (destruct (cf_cbflag cf); cbn; lia).
  unfold first_bare. rewrite !app_length. cbn [length lit Strings.String.list_ascii_of_string]. simpl. lia.
Qed.

Lemma pays_scram_first e a plus input :
  pays e (length input + 73) (handle_client_first e a plus input) (fun _ => 0).
Proof.
  unfold handle_client_first. 
  eapply pays_bind with (c1 := fun cf => length (cf_nonce cf) + 81).
  { apply pays_of_res. intros cf H. apply rmap_err_ok in H. apply nonce_short in H. lia. }
  intros cf. eapply pays_bind; [apply pays_setl|]. intros [].
  eapply pays_bind with (c1 := fun _ => length (cf_nonce cf) + 81).
  { destruct (cf_cbflag cf) as [| |name]; [destruct plus; [apply pays_fail|apply pays_ret; lia]|apply pays_ret; lia|].
    apply pays_cb_data. intros v l w r l' w' [= <- <- <-]. auto. }
  intros []. set (n := length (cf_nonce cf)).
  eapply pays_bind.
  { apply (pays_keeping e (n + 81) PScramStoredPassword _ _
      (fun p : bytes * bytes * bytes * bytes => length (snd (fst (fst p))) + length (fst (fst (fst p))))).
    - intros v l w r l' w'. destruct (_ && _); intros [= <- <- <-]; auto.
    - intros v l w g l' w'. destruct (_ && _); [|discriminate]. intros [= <- <- <-]. cbn. lia. }
  intros params. eapply pays_bind with (c1 := fun sn => length sn + match params with
    | Some p => n + 57 + (length (snd (fst (fst p))) + length (fst (fst (fst p)))) | None => n + 57 end).
  { apply pays_nonce. intros x Hx. destruct params; lia. }
  intros sn. destruct params as [[[[it salt] k1] k2]|]; cbn [fst snd].
  - eapply pays_bind with (c1 := fun _ => 0).
    + eapply pays_weaken; [apply (pays_write_all_vectored e 0)| |intros; reflexivity].
      unfold server_first_slices. cbn [concat]. rewrite !app_length. simpl. fold n. lia.
    + intros _. eapply pays_bind; [apply pays_getl|]. intros h. apply pays_ret. lia.
  - eapply pays_bind with (c1 := fun salt => n + 13 + length sn + length (encode salt)).
    { apply pays_random. intros x Hx. rewrite encode_length, Hx. simpl. lia. }
    intros salt. eapply pays_bind with (c1 := fun _ => 0); [|intros _; apply pays_ret; lia].
    eapply pays_weaken; [apply (pays_write_all_vectored e 0)| |intros; reflexivity].
    unfold server_first_slices. cbn [concat]. rewrite !app_length. simpl. fold n. lia.
Qed.

Lemma pays_final {L} e k m : length (concat (server_final_slices m)) <= k ->
  pays e k (@send_final L m) (fun _ => 0).
Proof.
  intros H. unfold send_final. eapply pays_bind with (c1 := fun _ => 0); [|intros _; apply pays_ret; lia].
  eapply pays_weaken; [apply (pays_write_all_vectored e 0)|lia|intros; reflexivity].
Qed.
Lemma hlen_text a : 28 <= 4 * ((hlen a + 2) / 3).
Proof. destruct a; cbn; lia. Qed.
Lemma pays_scram_final {L} e a d input : crypto_ok e ->
  pays e (2 + 4 * ((hlen a + 2) / 3)) (@handle_client_final L e a d input) (fun _ => 0).
Proof.
  intros [_ [Hm _]]. pose proof (hlen_text a) as Ha. set (k := 4 * ((hlen a + 2) / 3)) in *.
  unfold handle_client_final.
  eapply pays_bind with (c1 := fun _ => 2 + k); [apply pays_of_res; intros; lia|]. intros cl.
  assert (Er : forall x, length (srverr_bytes x) <= 27 ->
    pays e (2 + k) (@send_final L (SfError x)) (fun _ => 0)).
  { intros x Hx. apply pays_final. cbn [server_final_slices concat]. rewrite !app_length. simpl. lia. }
  destruct d as [d|]; [|apply Er; cbn; lia].
  destruct (decode (cl_cb cl)) as [cb|]; [|apply pays_fail].
  destruct (negb _); [apply Er; cbn; lia|].
  destruct (strip_prefix _ _) as [rest|]; [|apply Er; cbn; lia].
  destruct (_ && _); [|apply Er; cbn; lia].
  destruct (decode_slice _ _) as [proof|]; [|apply pays_fail].
  eapply pays_bind with (c1 := fun _ => 2 + k).
  { unfold exact. destruct (Nat.eqb _ _); [apply pays_ret; lia|apply pays_panic]. }
  intros key. destruct (bytes_eqb _ _); [|apply Er; cbn; lia].
  eapply pays_bind with (c1 := fun _ => 0); [|intros _; apply pays_weaken with (k := 0) (c := fun _ => 0);
    [apply pays_validate|lia|intros; lia]].
  apply pays_final. cbn [server_final_slices concat compute_signatures snd]. rewrite !app_length, encode_length.
  unfold compute_signatures. cbn [snd]. rewrite Hm. fold k. simpl. lia.
Qed.

Theorem answers_bounded e s input script r out s' evs :
  crypto_ok e -> serving (s_mech s) -> step e s input script = (r, out, s') -> new_events s s' evs ->
  length out <= allowed (s_mech s) input + supplied e evs.
Proof.
  intros Hcr Hs E Hev.
  assert (P : pays e (allowed (s_mech s) input) (fun _ => mech_step e input (s_mech s)) (fun _ => 0)).
  { intros l w x l' w' Em. unfold mech_step, bind, getl in Em.
    destruct (s_mech s) as [| |st|st| | | | |st|st|st|st|a st|a st|st|st]; try contradiction;
      cbn [allowed] in *.
    - exact (pays_on e _ _ tt _ _ (pays_plain e input) _ _ _ _ _ Em).
    - exact (pays_on e _ _ st _ _ (pays_login e input) _ _ _ _ _ Em).
    - exact (pays_on e _ _ tt _ _ (pays_external e input) _ _ _ _ _ Em).
    - exact (pays_on e _ _ tt _ _ (pays_anonymous e input) _ _ _ _ _ Em).
    - exact (pays_on e _ _ st _ _ (pays_xoauth2 e input) _ _ _ _ _ Em).
    - exact (pays_on e _ _ st _ _ (pays_oauthbearer e input) _ _ _ _ _ Em).
    - revert Em. unfold on. destruct (scram_server_step e a input st w) as [[r1 l1] w1] eqn:E1.
      intros [= <- <- <-]. revert E1. unfold scram_server_step, bind, getl, setl.
      destruct st as [[plus|d|]|]; [| |intros E1; apply (pays_fail (A := state) e 0 EMechanismDone (fun _ => 0) None w r1 l1 w1 E1)
        |intros E1; apply (pays_panic (A := state) e 0 (fun _ => 0) None w r1 l1 w1 E1)].
      + destruct input as [i|]; [|intros E1; apply (pays_fail (A := state) e _ EInputDataRequired (fun _ => 0) None w r1 l1 w1 E1)].
        intros E1. cbn [size_of].
        refine (pays_bind e _ (locally [] (handle_client_first e a plus i)) _ (fun _ => 0) (fun _ => 0) _ _
          (None : option scram_sst) w r1 l1 w1 E1).
        * exact (pays_locally e _ [] _ _ (pays_scram_first e a plus i)).
        * intros [d h]. apply pays_still; [intros l0 w0 r0 l2 w2 [= <- <- <-]; auto|intros; lia].
      + destruct input as [i|]; [|intros E1; apply (pays_fail (A := state) e _ EInputDataRequired (fun _ => 0) None w r1 l1 w1 E1)].
        intros E1.
        refine (pays_bind e _ (handle_client_final e a d i) _ (fun _ => 0) (fun _ => 0) _ _
          (None : option scram_sst) w r1 l1 w1 E1).
        * apply pays_scram_final; assumption.
        * intros []. apply pays_still; [intros l0 w0 r0 l2 w2 [= <- <- <-]; auto|intros; lia]. }
  unfold step, run in E.
  destruct (mech_step e input (s_mech s) _) as [[r1 m1] w1] eqn:Em. injection E as <- <- <-.
  destruct (P (s_mech s) _ _ _ _ Em) as [d [evs' [O [T B]]]]. cbn [w_out w_trace app] in O, T.
  unfold new_events in Hev. cbn [s_trace] in Hev. rewrite T in Hev. apply app_inv_head in Hev. subst evs'.
  rewrite O. destruct r1; lia.
Qed.

Lemma allowed_flat m input : allowed m input <= size_of input + 90.
Proof.
  destruct m as [| |st|st| | | | |st|st|st|st|a st|a st|st|st]; cbn [allowed]; try lia.
  destruct st as [[plus|d|]|]; try lia. destruct a; cbn; lia.
Qed.

Lemma serving_kept e s input script r out s' :
  serving (s_mech s) -> step e s input script = (r, out, s') -> serving (s_mech s').
Proof.
  intros Hs E. unfold step, run, mech_step, bind, getl in E.
  destruct (s_mech s) as [| |st|st| | | | |st|st|st|st|a st|a st|st|st]; try contradiction;
    unfold on in E;
    match type of E with match (match ?m ?l ?w with _ => _ end) with _ => _ end = _ => destruct (m l w) as [[r1 l1] w1] end;
    injection E as <- <- <-; exact I.
Qed.
Definition left_over (m : mech) : nat :=
  match m with
  | XScramS _ (Some (SsClientFirst _)) => 163
  | XScramS _ (Some (SsClientFinal _)) => 90
  | _ => 0
  end.
Lemma scram_next e a st input script tr n v r out s' :
  step e (mk_session (XScramS a st) tr n v) input script = (r, out, s') ->
  exists st', s_mech s' = XScramS a st' /\
    allowed (XScramS a st) input + left_over (XScramS a st') <= size_of input + left_over (XScramS a st).
Proof.
  unfold step, run, mech_step, bind, getl, on. cbn [s_mech s_trace s_rng s_val].
  destruct (scram_server_step e a input st _) as [[r1 l1] w1] eqn:E1. intros [= <- <- <-].
  exists l1. split; [reflexivity|]. unfold scram_server_step, bind, getl, setl in E1.
  destruct st as [[plus|d|]|]; [| |injection E1 as _ <- _; cbn; lia|injection E1 as _ <- _; cbn; lia].
  - destruct input as [i|]; [|injection E1 as _ <- _; cbn; lia].
    assert (left_over (XScramS a l1) <= 90).
    { destruct (locally _ _ _ _) as [[[[d h]|x|] l2] w2] eqn:E2.
      - injection E1 as _ <- _. cbn. lia.
      - injection E1 as _ <- _. unfold locally in E2.
        destruct (handle_client_first _ _ _ _ _ _) as [[[y|y|] l3] w3]; inversion E2; subst. cbn. lia.
      - injection E1 as _ <- _. unfold locally in E2.
        destruct (handle_client_first _ _ _ _ _ _) as [[[y|y|] l3] w3]; inversion E2; subst. cbn. lia. }
    cbn [allowed size_of]. change (left_over (XScramS a (Some (SsClientFirst plus)))) with 163. lia.
  - destruct input as [i|]; [|injection E1 as _ <- _; destruct a; cbn; lia].
    assert (left_over (XScramS a l1) = 0).
    { destruct (handle_client_final e a d i None _) as [[[u|x|] l2] w2] eqn:E2;
        injection E1 as _ <- _; [reflexivity| |]; apply final_stays in E2; subst l2; reflexivity. }
    cbn [allowed size_of]. change (left_over (XScramS a (Some (SsClientFinal d)))) with 90.
    rewrite H. destruct a; cbn; lia.
Qed.

Theorem traffic_bounded e s n i o s1 evs :
  crypto_ok e -> serving (s_mech s) -> traffic e s n i o s1 -> new_events s s1 evs ->
  o <= i + 90 * n + supplied e evs.
Proof.
  intros Hcr Hs H. assert (G : serving (s_mech s1) /\ exists evs, new_events s s1 evs /\ o <= i + 90 * n + supplied e evs).
  { induction H as [|n i o s1 input script r out s2 H [IH1 [v1 [IH2 IH3]]] E].
    - split; [exact Hs|]. exists []. unfold new_events. rewrite app_nil_r. split; [reflexivity|]. lia.
    - split; [exact (serving_kept _ _ _ _ _ _ _ IH1 E)|]. destruct (step_trace _ _ _ _ _ _ _ E) as [v2 Hv2].
      exists (v1 ++ v2). unfold new_events in *. rewrite Hv2, IH2, app_assoc. split; [reflexivity|].
      pose proof (answers_bounded _ _ _ _ _ _ _ v2 Hcr IH1 E Hv2). pose proof (allowed_flat (s_mech s1) input).
      rewrite supplied_app. lia. }
  destruct G as [_ [v [Hv B]]]. intros Hv'. unfold new_events in *. rewrite Hv in Hv'.
  apply app_inv_head in Hv'. subst v. exact B.
Qed.

Theorem scram_traffic_bounded e s a plus n i o s1 evs :
  crypto_ok e -> s_mech s = XScramS a (Some (SsClientFirst plus)) ->
  traffic e s n i o s1 -> new_events s s1 evs -> o <= i + 163 + supplied e evs.
Proof.
  intros Hcr Hs H.
  assert (G : exists st evs, s_mech s1 = XScramS a st /\ new_events s s1 evs /\
    o + left_over (XScramS a st) <= i + 163 + supplied e evs).
  { induction H as [|n i o s1 input script r out s2 H [st [v1 [IH1 [IH2 IH3]]]] E].
    - exists (Some (SsClientFirst plus)), []. split; [exact Hs|]. unfold new_events. rewrite app_nil_r.
      split; [reflexivity|]. cbn. lia.
    - destruct (step_trace _ _ _ _ _ _ _ E) as [v2 Hv2].
      assert (S1 : serving (s_mech s1)) by (rewrite IH1; exact I).
      pose proof (answers_bounded _ _ _ _ _ _ _ v2 Hcr S1 E Hv2) as B.
      destruct s1 as [m1 t1 n1 x1]. cbn [s_mech] in *. subst m1.
      destruct (scram_next _ _ _ _ _ _ _ _ _ _ _ E) as [st' [M' B']].
      exists st', (v1 ++ v2). split; [exact M'|]. unfold new_events in *. rewrite Hv2, IH2, app_assoc.
      split; [reflexivity|]. rewrite supplied_app. lia. }
  destruct G as [st [v [_ [Hv B]]]]. intros Hv'. unfold new_events in *. rewrite Hv in Hv'.
  apply app_inv_head in Hv'. subst v. lia.
Qed.
