(** Proofs for C83. *)
From Coq Require Import Lia ZArith ZifyN.
From Verif Require Import Bytes Base64 Base64Facts Num Types World CallbackSpec WorldFacts MonadFacts Simple ScramParser Scram Session Frame
  Spec_Simple Spec_OAuth Spec_ScramText Spec_Scram Spec_Policy Proof_Simple Proof_Wire Proof_Scram Proof_ScramRun Proof_ScramMain Proof_Agree ExampleEnv ExampleScram.
Open Scope m_scope.

(** Only [c] is shown with requests for [q]. *)
Definition only_asks (q : prop) (c : ctx) (evs : list event) : Prop :=
  forall q' c', In (EvRequest q' c') evs -> q' = q /\ c' = c.
Lemma closures_silent cs q c : only_closures cs -> ~ In (EvRequest q c) cs.
Proof. intros H I. unfold only_closures in H. rewrite Forall_forall in H. exact (H _ I). Qed.
Lemma answers_in q v evs : In (EvAnswer q v) evs -> answers q evs <> [].
Proof.
  induction evs as [|ev evs IH]; [contradiction|]. intros [-> |I]; cbn [answers].
  - rewrite castp_refl. discriminate.
  - destruct ev; try exact (IH I). destruct (castp v0); [discriminate|exact (IH I)].
Qed.
Lemma request_shape q c cs1 v cs2 : only_closures cs1 -> only_closures cs2 ->
  only_asks q c ((EvRequest q c :: cs1 ++ [EvAnswer q v]) ++ cs2).
Proof.
  intros H1 H2 q' c' I. apply in_app_or in I. destruct I as [[I|I]|I].
  - injection I as <- <-. auto.
  - apply in_app_or in I. destruct I as [I|[I|[]]]; [destruct (closures_silent _ _ _ H1 I)|discriminate].
  - destruct (closures_silent _ _ _ H2 I).
Qed.

Lemma need_shown {L G} e q c (f : pval q -> M L G) l w r l' w' :
  (forall v l w, exists r, f v l w = (r, l, w)) ->
  maybe_need_with e q c f l w = (r, l', w') ->
  l' = l /\ exists evs, w' = add_events evs w /\ only_asks q c evs /\ (forall g, r = Ok (Some g) -> answers q evs <> []).
Proof.
  intros Hf H. apply maybe_need_with_inv in H.
  assert (A : forall v cs1 cs2, In (EvAnswer q v) ((EvRequest q c :: cs1 ++ [EvAnswer q v]) ++ cs2)).
  { intros v cs1 cs2. apply in_or_app. left. right. apply in_or_app. right. left. reflexivity. }
  destruct H as [cs r Hc Hr|v cs1 cs2 g r l1 w1 H1 H2 Ef Hr|v cs1 cs2 x r l1 w1 H1 H2 Ef Hr|v cs1 l1 w1 H1 Ef].
  - split; [reflexivity|]. exists (EvRequest q c :: cs). split; [reflexivity|]. split.
    + intros q' c' [I|I]; [injection I as <- <-; auto|destruct (closures_silent _ _ _ Hc I)].
    + intros g ->. destruct Hr as [?|[? ?]]; discriminate.
  - destruct (Hf v l (add_events (EvRequest q c :: cs1 ++ [EvAnswer q v]) w)) as [r0 E0]. rewrite E0 in Ef.
    injection Ef as _ <- <-. split; [reflexivity|]. rewrite add_events_app. eexists. split; [reflexivity|].
    split; [apply request_shape; assumption|]. intros g0 _. apply (answers_in q v). apply A.
  - destruct (Hf v l (add_events (EvRequest q c :: cs1 ++ [EvAnswer q v]) w)) as [r0 E0]. rewrite E0 in Ef.
    injection Ef as _ <- <-. split; [reflexivity|]. rewrite add_events_app. eexists. split; [reflexivity|].
    split; [apply request_shape; assumption|]. intros g0 _. apply (answers_in q v). apply A.
  - destruct (Hf v l (add_events (EvRequest q c :: cs1 ++ [EvAnswer q v]) w)) as [r0 E0]. rewrite E0 in Ef.
    injection Ef as _ <- <-. split; [reflexivity|]. eexists. split; [reflexivity|].
    split; [|discriminate]. rewrite <- (app_nil_r (_ :: _)). apply request_shape; [assumption|constructor].
Qed.

Lemma write_all_vectored_trace {L} bufs (l : L) w r l' w' :
  write_all_vectored bufs l w = (r, l', w') -> w_trace w' = w_trace w.
Proof.
  intros H. pose proof (keeps_write_all_vectored (fun w w' => w_trace w' = w_trace w) bufs
    ltac:(intros p a b [_ [Ht _]]; exact Ht) l w) as K. rewrite H in K. exact K.
Qed.
Lemma shown_app salt n a b : shown salt n a -> shown salt n b -> shown salt n (a ++ b).
Proof. intros H1 H2 q c I. apply in_app_or in I. destruct I; auto. Qed.
Lemma asks_shown salt n q evs : key_property q -> only_asks q (scram_client_provider salt n) evs -> shown salt n evs.
Proof.
  intros K H q' c I. destruct (H q' c I) as [-> ->]. split; [exact K|apply salt_provider_offers].
Qed.

Lemma keys_shown {L} e a salt n (l : L) w r l' w' :
  client_keys e a salt n l w = (r, l', w') ->
  l' = l /\ exists evs, w' = add_events evs w /\ shown salt n evs /\ (forall k, r = Ok k -> ~ declined evs).
Proof.
  unfold client_keys. cbn zeta. unfold bind at 1.
  match goal with |- context [maybe_need_with e PScramCachedPassword ?c ?f l w] =>
    destruct (maybe_need_with e PScramCachedPassword c f l w) as [[r1 l1] w1] eqn:E1;
    apply need_shown in E1; [|intros v l0 w0; destruct (_ && _); eexists; reflexivity] end.
  destruct E1 as [-> [evs1 [-> [S1 A1]]]]. apply asks_shown in S1; [|left; reflexivity].
  destruct r1 as [[k|]|x|].
  - intros H. injection H as <- <- <-. split; [reflexivity|]. exists evs1. split; [reflexivity|]. split; [exact S1|].
    intros k0 _ [D _]. exact (A1 _ eq_refl D).
  - unfold bind at 1.
    match goal with |- context [maybe_need_with e PSaltedPassword ?c ?f l ?w] =>
      destruct (maybe_need_with e PSaltedPassword c f l w) as [[r2 l2] w2] eqn:E2;
      apply need_shown in E2; [|intros v l0 w0; destruct v; eexists; reflexivity] end.
    destruct E2 as [-> [evs2 [-> [S2 A2]]]]. apply asks_shown in S2; [|right; left; reflexivity].
    rewrite !add_events_app.
    destruct r2 as [[k|]|x|].
    + intros H. injection H as <- <- <-. split; [reflexivity|]. exists (evs1 ++ evs2). split; [reflexivity|].
      split; [apply shown_app; assumption|].
      intros k0 _ [_ [D _]]. rewrite answers_app in D. apply app_eq_nil in D. exact (A2 _ eq_refl (proj2 D)).
    + unfold need_with, bind at 1.
      match goal with |- context [maybe_need_with e PPassword ?c ?f l ?w] =>
        destruct (maybe_need_with e PPassword c f l w) as [[r3 l3] w3] eqn:E3;
        apply need_shown in E3; [|intros v l0 w0; eexists; reflexivity] end.
      destruct E3 as [-> [evs3 [-> [S3 A3]]]]. apply asks_shown in S3; [|right; right; reflexivity].
      rewrite !add_events_app. intros H.
      assert (l' = l /\ w' = add_events ((evs1 ++ evs2) ++ evs3) w /\ (forall k, r = Ok k -> exists g, r3 = Ok (Some g)))
        as [-> [-> Hr]].
      { destruct r3 as [[g|]|x|]; unfold ret, fail in H; injection H as <- <- <-;
          (split; [reflexivity|]); (split; [reflexivity|]); intros; try discriminate; eauto. }
      split; [reflexivity|]. eexists. split; [reflexivity|].
      split; [repeat apply shown_app; assumption|]. intros k Hk [_ [_ D]].
      destruct (Hr k Hk) as [g ->]. rewrite answers_app in D. apply app_eq_nil in D. exact (A3 _ eq_refl (proj2 D)).
    + intros H. injection H as <- <- <-. split; [reflexivity|]. exists (evs1 ++ evs2). split; [reflexivity|].
      split; [apply shown_app; assumption|discriminate].
    + intros H. injection H as <- <- <-. split; [reflexivity|]. exists (evs1 ++ evs2). split; [reflexivity|].
      split; [apply shown_app; assumption|discriminate].
  - intros H. injection H as <- <- <-. split; [reflexivity|]. exists evs1. split; [reflexivity|]. split; [exact S1|discriminate].
  - intros H. injection H as <- <- <-. split; [reflexivity|]. exists evs1. split; [reflexivity|]. split; [exact S1|discriminate].
Qed.

Lemma answer_shown {L} e a cb nonce user sn salt64 iters salt n (l : L) w r l' w' :
  hsf_answer e a cb nonce user sn salt64 iters salt n l w = (r, l', w') ->
  exists evs, w_trace w' = w_trace w ++ evs /\ shown salt n evs /\
    (declined evs -> w_out w' = w_out w /\ forall k, r <> Ok k).
Proof.
  unfold hsf_answer, bind at 1. destruct (client_keys e a salt n l w) as [[r1 l1] w1] eqn:E.
  apply keys_shown in E. destruct E as [-> [evs [-> [S A]]]].
  destruct r1 as [k|x|].
  - intros H. exists evs. split; [|split; [exact S|intros D; destruct (A k eq_refl D)]].
    cbv zeta in H. unfold bind, exact in H. destruct (Nat.eqb _ _).
    + unfold ret at 1 in H.
      destruct (write_all_vectored _ l (add_events evs w)) as [[r2 l2] w2] eqn:E2.
      apply write_all_vectored_trace in E2. destruct r2; unfold ret in H; injection H as _ _ <-; exact E2.
    + injection H as _ _ <-. reflexivity.
  - intros H. injection H as <- <- <-. exists evs. split; [reflexivity|]. split; [exact S|]. intros _. split; [reflexivity|discriminate].
  - intros H. injection H as <- <- <-. exists evs. split; [reflexivity|]. split; [exact S|]. intros _. split; [reflexivity|discriminate].
Qed.

Theorem step_shown e s a cb nonce user m script r out s' :
  client_waits s a cb nonce user -> step e s (Some m) script = (r, out, s') ->
  exists evs, new_events s s' evs /\
    (evs <> [] -> exists sn salt64 salt iters n, continues m nonce sn salt64 salt iters n /\ shown salt n evs) /\
    (declined evs -> out = [] /\ forall st, r <> Ok st).
Proof.
  intros Em H. apply (step_scram_client _ _ _ _ _ _ _ _ _ Em) in H.
  destruct H as [st1 [w' [H [-> ->]]]]. apply client_step2 in H.
  destruct H as [r1 [l1 [H Hr]]]. apply server_first_handled in H.
  assert (R : (forall k, r1 <> Ok k) -> forall st, r <> Ok st).
  { intros N st ->. destruct Hr as [[s0 [-> _]]|[[x [_ [? _]]]|[_ [? _]]]]; try discriminate. exact (N s0 eq_refl). }
  destruct H as [[Hno [Hnk [-> ->]]]|[sn [salt64 [salt [iters [n [Hc H]]]]]]].
  - exists []. unfold new_events. cbn [w_out w_trace s_trace]. rewrite app_nil_r. split; [reflexivity|].
    split; [congruence|]. intros _. split; [reflexivity|exact (R Hnk)].
  - apply answer_shown in H. destruct H as [evs [T [S D]]]. exists evs. split; [exact T|].
    split; [intros _; exists sn, salt64, salt, iters, n; split; assumption|].
    intros Hd. destruct (D Hd) as [O N]. split; [exact O|exact (R N)].
Qed.

Theorem any_count e s a cb nonce user sn salt n p :
  client_waits s a cb nonce user -> crypto_ok e -> gives_keys e a p salt n ->
  sn <> [] -> free ","%char (nonce ++ sn) -> (1 <= n <= u32_max)%N ->
  let m := lit "r=" ++ nonce ++ sn ++ lit ",s=" ++ encode salt ++ lit ",i=" ++ fmt_u32 n in
  exists s', step e s (Some m) [] = (Ok Running, lit "c=" ++ cb ++ lit ",r=" ++ nonce ++ sn ++ lit ",p=" ++
    encode (client_proof e a (client_key_of e a (e_pbkdf2 e a p salt n))
      (exchange_message user nonce sn (encode salt) (fmt_u32 n) cb)), s').
Proof.
  intros W Hc K Hs F Hn m.
  assert (C : continues m nonce sn (encode salt) salt (fmt_u32 n) n).
  { split; [unfold m, server_first_text; rewrite <- !app_assoc; reflexivity|]. split; [exact Hs|].
    split; [apply decode_encode|]. split; [apply parse_written; unfold u32_max in Hn; lia|]. split; [lia|].
    split; [exact F|]. split; [apply encode_free|apply fmt_free]. }
  destruct (client_second_run _ _ _ _ _ _ _ _ _ _ _ _ _ W C Hc K) as [s' [E _]]. cbv zeta in E.
  exists s'. etransitivity; [exact E|]. unfold final_bare. rewrite <- !app_assoc. reflexivity.
Qed.

Lemma not_recommended :
  ~ (forall e s a cb nonce user m script out s' sn salt64 salt iters n, client_waits s a cb nonce user ->
       step e s (Some m) script = (Ok Running, out, s') -> continues m nonce sn salt64 salt iters n ->
       recommended salt n).
Proof.
  intros H.
  set (nonce := firstn 24 (skipn 2 ex_b2)).
  set (m := server_first_text (nonce ++ lit "X") [] (lit "1")).
  assert (W : client_waits ex_bs1 SHA1 (encode (lit "p=tls-exporter,a=admin,data")) nonce (lit "user"))
    by (vm_compute; reflexivity).
  assert (C : continues m nonce (lit "X") [] [] (lit "1") 1).
  { split; [reflexivity|]. split; [discriminate|]. split; [reflexivity|]. split; [vm_compute; reflexivity|].
    split; [discriminate|]. split; [|split]; unfold free; vm_compute; intuition discriminate. }
  assert (E : res_of (step ex_cl ex_bs1 (Some m) []) = Ok Running) by (vm_compute; reflexivity).
  destruct (step ex_cl ex_bs1 (Some m) []) as [[r out] s'] eqn:E2. cbn in E. subst r.
  destruct (H _ _ _ _ _ _ _ _ _ _ _ _ _ _ _ W E2 C) as [N _]. exact (N eq_refl).
Qed.
